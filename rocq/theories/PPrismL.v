(** PPrismL.v — prism against segment in IEEE arithmetic (C100). *)
From Coq Require Import Reals List ZArith NArith Bool Lra Lia Psatz.
From Flocq Require Import Core BinarySingleNaN.
Import ListNotations.
From Verif Require Import Base Num Vec Mat Bound Shape Intersect Gjk Float Exact FloatFacts FloatRound ExactFacts Order SpecMat SpecGeom
  SpecBound SpecShape SpecInter SpecRound SpecBuild SpecPrismF PMat PBound PShape PBuild PInter PVec PRound PRound3 PGeo1 PGeo3 PIeee1 PIeee2 PIeee3 PIeee5 PIeee6 PIeee7 PInvF PGrow PPrismF.
Local Open Scope R_scope.

(** ---- what a hit of the segment query consists of, any arithmetic ---- *)
Section Inv.
  Context {Nm : Num}.
  Lemma facets_inv (a : mat3x1 Nm) (mag : Nm) r tests fs o :
    for_ret fs (fun i =>
          let! res := ray_get_intersect r (SPlane i) in
          if fst res then
            let! collide_point := unwrap (snd res) in
            let! df := unwrap (mat3x1_minus collide_point a) in
            let! mag2 := unwrap (mat3x1_magnitude df) in
            let! is_point_inside := all_inside tests collide_point in
            if (negb is_point_inside || ngt mag2 mag)%bool then Ok Next
            else Ok (Ret (snd res))
          else Ok Next) = Ok (Some (Some o)) ->
    exists i mag2, ray_get_intersect r (SPlane i) = Ok (true, Some o) /\ mat3x1_magnitude (vminus o a) = Some mag2 /\ all_inside tests o = Ok true /\ ngt mag2 mag = false.
  Proof.
    induction fs as [| f fs IH]; cbn [for_ret]; [discriminate |]. destruct (ray_plane_get r f) as [[b l] [E Ha]]. rewrite E. cbn [bind fst snd]. destruct b; [| exact IH].
    destruct (proj1 Ha eq_refl) as [p Hp]. cbn in Hp. subst l. cbn [unwrap bind]. destruct (all_inside_ok tests p) as [c Hc].
    assert (M : mat3x1_minus p a = Some (vminus p a)) by (destruct p as [[]], a as [[]]; reflexivity). rewrite M. cbn [unwrap bind].
    assert (G : exists m, mat3x1_magnitude (vminus p a) = Some m) by (destruct p as [[]], a as [[]]; eexists; reflexivity). destruct G as [m G]. rewrite G, Hc. cbn [unwrap bind].
    destruct c; cbn [negb orb]; [| exact IH]. destruct (ngt m mag) eqn:NG; cbn [bind]; [exact IH |]. intro X. injection X as <-. exists f, m. repeat split; assumption.
  Qed.
  Lemma ray_plane_inv (r : ray3 Nm) (q : plane Nm) p : ray_get_intersect r (SPlane q) = Ok (true, Some p) ->
    p = ray_ori r \/ exists t, nlt t n0 = false /\ along (ray_dir r) t (ray_ori r) = Ok p.
  Proof.
    unfold ray_get_intersect. change (ibound_intersect _ _) with (aabb_intersect (ray_bound r) (BBox (pl_bound q))). rewrite intersect_eval. cbn [bind].
    destruct (negb _); [discriminate |]. change (shape_get_type (SPlane q)) with TPlane. cbv iota. unfold ray_plane. destruct q as [[[q0 q1 q2]] [[m0 m1 m2]] bb vv]. destruct r as [[[o0 o1 o2]] [[d0 d1 d2]] rb rv].
    change (vec_at _ 0) with (Ok (M3x1 (A3 q0 q1 q2))). change (vec_at _ 3) with (Ok (M3x1 (A3 m0 m1 m2))). cbn [ray_ori ray_dir bind mat3x1_dot unwrap].
    repeat match goal with |- (if ?x then _ else _) = _ -> _ => destruct x eqn:? end; try discriminate.
    - intro X. injection X as <-. left. reflexivity.
    - intro X. right. match goal with T : nlt ?t n0 = false |- _ => exists t; split; [exact T |]; destruct (along _ t _) as [z |]; [cbn [bind] in X; injection X as ->; reflexivity | discriminate X] end.
  Qed.
  Lemma line_inv (t : triprism Nm) (q : line3 Nm) l x : triprism_tests t = Ok l -> triprism_line t (shape_get_shape_data (SLine q)) = Ok (true, Some x) ->
    all_inside l x = Ok true /\ (x = ln_a q \/ x = ln_b q \/ exists m m2 s, mat3x1_magnitude (vminus (ln_b q) (ln_a q)) = Some m /\ mat3x1_magnitude (vminus x (ln_a q)) = Some m2 /\
      ngt m2 m = false /\ nlt s n0 = false /\ along (nrm (vminus (ln_b q) (ln_a q))) s (ln_a q) = Ok x).
  Proof.
    intro T. unfold triprism_line. cbn [shape_get_shape_data]. rewrite vec_at_data. cbn [bind].
    rewrite <- (app_nil_r (vec_data (ln_b q))), vec_at_data3. cbn [bind]. rewrite T. cbn [bind].
    destruct (all_inside_ok l (ln_a q)) as [ia Ia]. destruct (all_inside_ok l (ln_b q)) as [ib Ib]. rewrite Ia, Ib. cbn [bind].
    destruct ia; [intro X; injection X as <-; split; [exact Ia | left; reflexivity] |]. destruct ib; [intro X; injection X as <-; split; [exact Ib | right; left; reflexivity] |].
    assert (Hm : mat3x1_minus (ln_b q) (ln_a q) = Some (vminus (ln_b q) (ln_a q))) by (destruct (ln_b q) as [[]], (ln_a q) as [[]]; reflexivity).
    rewrite Hm. cbn [unwrap bind]. set (v := vminus (ln_b q) (ln_a q)) in *.
    assert (Hg : exists m, mat3x1_magnitude v = Some m) by (destruct v as [[]]; eexists; reflexivity). destruct Hg as [m Hg]. rewrite Hg. cbn [unwrap bind].
    assert (Hr : ray_init (vec_data (ln_a q)) (vec_data v) = Ok (MkRay (ln_a q) (nrm v) (ray_any (ln_a q) v) vicinity0)) by (rewrite <- ray_init_any; destruct (ln_a q) as [[]], v as [[]]; reflexivity).
    rewrite Hr. cbn [bind]. assert (Hs : forall x s, exists y, @mat3x1_scale Nm x s = Some y) by (intros [[]] s; eexists; reflexivity).
    destruct (Hs (tp_nh t) (nlit Nm (-1) 1)) as [n0' ->]. cbn [unwrap bind].
    assert (Hn : forall x y z, exists w, @side_normal Nm x y z = Ok w) by (intros [[]] [[]] [[]]; eexists; reflexivity).
    clear T. destruct t as [[b0 b1 b2] [c0 c1 c2] nh tb tv]. cbn [tp_base tp_base2 tp_nh].
    destruct (Hn b0 b1 nh) as [x2 ->], (Hn b1 b2 nh) as [x3 ->], (Hn b2 b0 nh) as [x4 ->]. cbn [bind].
    destruct (plane_of_ok b0 n0') as [p0 ->], (plane_of_ok c0 nh) as [p1 ->], (plane_of_ok b0 x2) as [p2 ->],
      (plane_of_ok b1 x3) as [p3 ->], (plane_of_ok b2 x4) as [p4 ->]. cbn [bind].
    match goal with |- context [for_ret ?fs ?f] => destruct (for_ret fs f) as [o |] eqn:E end; [| discriminate]. cbn [bind]. destruct o as [o |]; [| discriminate].
    intro X. injection X as ->. apply facets_inv in E. destruct E as (i & m2 & R1 & R2 & R3 & R4). split; [exact R3 |].
    apply ray_plane_inv in R1. cbn [ray_ori ray_dir] in R1. destruct R1 as [-> | [s [S1 S2]]]; [left; reflexivity |]. right; right. exists m, m2, s. repeat split; assumption.
  Qed.
End Inv.

(** ---- real geometry ---- *)
Lemma dist_sym_any a b : dist a b = dist b a.
Proof. unfold dist, norm, vdot, vsub. cbn [vx vy vz]. f_equal. ring. Qed.
Lemma norm_split v p q al be ga : 0 <= al -> 0 <= be -> 0 <= ga ->
  Rabs (vx v) <= al * Rabs (vx p) + be * Rabs (vx q) + ga -> Rabs (vy v) <= al * Rabs (vy p) + be * Rabs (vy q) + ga -> Rabs (vz v) <= al * Rabs (vz p) + be * Rabs (vz q) + ga ->
  norm v <= al * norm p + be * norm q + 2 * ga.
Proof.
  intros A B G X Y Z. apply Rle_trans with (norm (vadd (vadd (vscale al (vabs p)) (vscale be (vabs q))) (vscale ga (V 1 1 1)))); [apply norm_mono; cbn; lra |].
  eapply Rle_trans; [apply triangle |]. assert (N1 : norm (V 1 1 1) <= 2) by (apply norm_le_sq; [lra |]; cbv [vdot vx vy vz]; lra).
  pose proof (triangle (vscale al (vabs p)) (vscale be (vabs q))) as T. rewrite !norm_scale_abs, !norm_vabs, !Rabs_pos_eq in T by assumption. rewrite norm_scale_abs, (Rabs_pos_eq ga) by assumption. nra.
Qed.
Lemma on_segment A B t : A <> B -> 0 <= t <= dist B A -> s_segment A B (vadd A (vscale t (PShape.unit (vsub B A)))).
Proof.
  intros N [T0 T1]. assert (D0 : 0 < dist B A) by (apply norm_nz; intro E; apply N; symmetry; apply V3_eq; [apply (f_equal vx) in E | apply (f_equal vy) in E | apply (f_equal vz) in E]; simpl in E; lra).
  exists (t / dist B A). split; [split; [apply Rmult_le_reg_r with (dist B A); [exact D0 |]; unfold Rdiv; rewrite Rmult_assoc, Rinv_l by lra; lra | apply Rmult_le_reg_r with (dist B A); [exact D0 |]; unfold Rdiv; rewrite Rmult_assoc, Rinv_l by lra; lra] |].
  unfold PShape.unit, dist. apply V3_eq; simpl; field; unfold dist in D0; lra.
Qed.
Lemma sum_unit A B : A <> B -> norm (PShape.unit (vsub B A)) = 1.
Proof.
  intro N. assert (D0 : 0 < norm (vsub B A)) by (apply norm_nz; intro E; apply N; symmetry; apply V3_eq; [apply (f_equal vx) in E | apply (f_equal vy) in E | apply (f_equal vz) in E]; simpl in E; lra).
  unfold PShape.unit. rewrite norm_scale_abs, Rabs_pos_eq by (left; apply Rinv_0_lt_compat; exact D0). apply Rinv_l. lra.
Qed.
(** the core of the estimate, with [U] = u K: [T] the computed parameter, [d] the computed direction *)
Lemma seg_core A B X d t u K : A <> B -> 0 < u <= / 1024 -> 1 <= K -> norm A <= 87 / 100 * K -> dist B A <= 174 / 100 * K -> 0 <= t ->
  dist d (PShape.unit (vsub B A)) <= 10 * u -> dist X A <= (1 + 13 * u) * dist B A ->
  norm (vsub (vsub X A) (vscale t d)) <= u * (t * norm d) + 1002 / 1000 * u * norm X + 2 * (u / 1024) ->
  exists z, s_segment A B z /\ dist z X <= 70 * u * K.
Proof.
  intros NE [U0 U1] K1 LA LD T0 HD HX HE. set (DD := dist B A) in *. set (D := PShape.unit (vsub B A)) in *. pose proof (sum_unit A B NE) as N1. fold D in N1.
  set (E := norm _) in HE. assert (P0 : 0 <= DD) by apply norm_pos.
  assert (UK : 0 < u * K) by (apply Rmult_lt_0_compat; lra).
  assert (LX : norm X <= 264 / 100 * K). { pose proof (norm_close X A) as Q. assert ((1 + 13 * u) * DD <= (1 + 13 / 1024) * (174 / 100 * K)) by (apply Rmult_le_compat; lra). lra. }
  assert (XA : dist X A <= DD + 2262 / 100 * (u * K)). { eapply Rle_trans; [exact HX |]. assert (u * DD <= u * (174 / 100 * K)) by (apply Rmult_le_compat_l; lra). lra. }
  assert (PT : t * norm d <= dist X A + E).
  { replace (t * norm d) with (norm (vscale t d)) by (rewrite norm_scale_abs, Rabs_pos_eq by exact T0; reflexivity).
    pose proof (norm_close (vscale t d) (vsub X A)) as Q. rewrite (dist_sym_any (vscale t d) (vsub X A)) in Q. exact Q. }
  set (T := t * norm d) in *. assert (T1 : 0 <= T) by (apply Rmult_le_pos; [exact T0 | apply norm_pos]).
  assert (UX : u * norm X <= 264 / 100 * (u * K)) by nra. assert (uK : u <= u * K) by nra.
  assert (E1 : E <= u * T + 265 / 100 * (u * K)) by lra.
  assert (TK : T <= 179 / 100 * K). { assert (u * T <= / 1024 * T) by (apply Rmult_le_compat_r; lra). assert (u * K <= / 1024 * K) by (apply Rmult_le_compat_r; lra). lra. }
  assert (E2 : E <= 445 / 100 * (u * K)). { assert (u * T <= u * (179 / 100 * K)) by (apply Rmult_le_compat_l; lra). lra. }
  assert (ND : 1 - 10 * u <= norm d). { pose proof (norm_close D d) as Q. rewrite N1, (dist_sym_any D d) in Q. lra. }
  assert (tT : t * (1 - 10 * u) <= T) by (apply Rmult_le_compat_l; assumption).
  assert (tK : t <= 181 / 100 * K). { assert (t * (1 - 10 / 1024) <= t * (1 - 10 * u)) by (apply Rmult_le_compat_l; lra). lra. }
  assert (tu : u * t <= 181 / 100 * (u * K)). { replace (181 / 100 * (u * K)) with (u * (181 / 100 * K)) by ring. apply Rmult_le_compat_l; lra. }
  assert (tD : t <= DD + 4518 / 100 * (u * K)) by lra.
  exists (vadd A (vscale (Rmin t DD) D)). split; [apply on_segment; [exact NE | split; [apply Rmin_glb; assumption | apply Rmin_r]] |].
  rewrite dist_sym_any. replace (dist X (vadd A (vscale (Rmin t DD) D))) with (norm (vadd (vsub (vsub X A) (vscale t d)) (vadd (vscale t (vsub d D)) (vscale (t - Rmin t DD) D)))).
  2: { unfold dist. f_equal. apply V3_eq; simpl; ring. }
  eapply Rle_trans; [apply triangle |]. fold E. eapply Rle_trans; [apply Rplus_le_compat_l, triangle |]. rewrite !norm_scale_abs, N1, (Rabs_pos_eq t) by exact T0.
  assert (M : Rabs (t - Rmin t DD) <= 4518 / 100 * (u * K)). { unfold Rmin. destruct (Rle_dec t DD); rewrite Rabs_pos_eq; lra. }
  assert (t * norm (vsub d D) <= t * (10 * u)) by (apply Rmult_le_compat_l; [exact T0 | exact HD]). lra.
Qed.

Section SegF.
  Context (prec emax : Z) {Hp : Prec_gt_0 prec} {Hm : Prec_lt_emax prec emax} (lm : libm (binary_float prec emax)).
  Notation bf := (binary_float prec emax).
  Notation val := (@B2R prec emax).
  Notation fin x := (is_finite (x : bf) = true).
  Notation rnd := (round radix2 (SpecFloat.fexp prec emax) ZnearestE).
  Notation u := (uro prec).
  Notation et := (eta prec emax).
  Notation big := (bpow radix2 emax).
  Notation F := (@Ieee prec emax Hp Hm lm).
  Notation w3 v := (v3 (v : mat3x1 bf)).
  Notation O := (ieee_ordered prec emax lm).
  Notation M := (ieee_rounded prec emax lm).
  (** the length of a vector without NaN is not NaN *)
  Definition nonneg (x : XR) : Prop := x = PInf \/ exists v, x = Fin v /\ 0 <= v.
  Lemma rd_nonneg v : 0 <= v -> nonneg (rd M v).
  Proof.
    intro H. pose proof (rd_mono M 0 v H) as L. rewrite (rd_0 M) in L. destruct (rd M v) as [w | | |]; cbn in L; try contradiction; [right; exists w; auto | left; reflexivity].
  Qed.
  Lemma sq_nonneg (x : bf) : b2x prec emax x <> NaN -> nonneg (b2x prec emax (Bmult mode_NE x x)).
  Proof.
    intro N. pose proof (r_mul M x x) as E. cbn [emb ieee_ordered nmul Ieee] in E. rewrite E. destruct (b2x prec emax x) as [v | | |]; [apply rd_nonneg; nra | left; reflexivity | left; reflexivity | contradiction].
  Qed.
  Lemma add_nonneg (x y : bf) : nonneg (b2x prec emax x) -> nonneg (b2x prec emax y) -> nonneg (b2x prec emax (Bplus mode_NE x y)).
  Proof.
    intros X Y. pose proof (r_add M x y) as E. cbn [emb ieee_ordered nadd Ieee] in E. rewrite E. destruct X as [-> | [v [-> V]]], Y as [-> | [w [-> W]]]; try (left; reflexivity). apply rd_nonneg. lra.
  Qed.
  Lemma len_fin (c0 c1 c2 m : F) : b2x prec emax c0 <> NaN -> b2x prec emax c1 <> NaN -> b2x prec emax c2 <> NaN -> fin m -> ngt (len3 prec emax c0 c1 c2 : F) m = false -> fin (len3 prec emax c0 c1 c2).
  Proof.
    intros N0 N1 N2 Fm G. pose proof (add_nonneg _ _ (add_nonneg _ _ (sq_nonneg c0 N0) (sq_nonneg c1 N1)) (sq_nonneg c2 N2)) as S. unfold len3 in *. set (s := Bplus mode_NE _ (Bmult mode_NE c2 c2)) in *.
    destruct S as [S | [v [S V]]].
    - exfalso. destruct (x_cases prec emax s) as [[Fs Es] | [[Es _] | [[_ Es] | [_ Es]]]]; try (rewrite Es in S; discriminate).
      rewrite Es in G. assert (ngt (Bsqrt mode_NE (B754_infinity false) : F) m = true); [| congruence]. apply (ngt_F prec emax lm). rewrite (fin_x prec emax m Fm). exact I.
    - destruct (x_cases prec emax s) as [[Fs Es] | [[_ Es] | [[_ Es] | [_ Es]]]]; try (rewrite Es in S; discriminate). rewrite Es in S. injection S as S. apply (sqrt_ok prec emax s Fs). lra.
  Qed.
  Lemma fin_nan (x : bf) : fin x -> b2x prec emax x <> NaN.
  Proof. intro H. rewrite (fin_x prec emax x H). discriminate. Qed.
  Lemma sub_nan (x y : bf) : fin x -> fin y -> b2x prec emax (Bminus mode_NE x y) <> NaN.
  Proof. intros X Y. pose proof (r_sub M x y) as E. cbn [emb ieee_ordered nsub Ieee] in E. rewrite E, (fin_x prec emax x X), (fin_x prec emax y Y). apply rd_nan. Qed.

  Variables (a b : mat3x1 F) (K : R).
  Notation A := (w3 a). Notation B := (w3 b).
  Hypotheses (HP : (9 < prec)%Z) (K1 : 1 <= K) (KB : K * K <= bpow radix2 (emax / 2 - 7))
    (Fa : fin3 (a : mat3x1 bf)) (Fb : fin3 (b : mat3x1 bf)) (Ua : upto (K / 2) A) (Ub : upto (K / 2) B) (L0 : bpow radix2 (8 - emax) <= dist B A * dist B A).
  (** a difference of finite floats *)
  Lemma minus_dist (x y : mat3x1 F) : fin3 (vminus x y : mat3x1 bf) -> dist (w3 (vminus x y)) (vsub (w3 x) (w3 y)) <= u * dist (w3 x) (w3 y).
  Proof.
    destruct x as [[x0 x1 x2]], y as [[y0 y1 y2]]. intros (F0 & F1 & F2). change (fin (Bminus mode_NE x0 y0)) in F0. change (fin (Bminus mode_NE x1 y1)) in F1. change (fin (Bminus mode_NE x2 y2)) in F2.
    assert (S : forall p q : bf, fin (Bminus mode_NE p q) -> Rabs (val (Bminus mode_NE p q) - (val p - val q)) <= u * Rabs (val p - val q)).
    { intros p q H. destruct (minus_fin prec emax p q H) as [P Q]. destruct (minus_round prec emax p q P Q) as [R1 R2]. destruct (R1 (R2 H)) as [_ ->].
      destruct (minus_rel prec emax p q) as [e [He ->]]. replace ((val p - val q) * (1 + e) - (val p - val q)) with (e * (val p - val q)) by ring. rewrite Rabs_mult. apply Rmult_le_compat_r; [apply Rabs_pos | exact He]. }
    unfold dist at 1. eapply Rle_trans; [apply (norm_split _ (vsub (w3 (M3x1 (A3 x0 x1 x2))) (w3 (M3x1 (A3 y0 y1 y2)))) vzero u 0 0); try lra; [left; apply u_pos | | |] |].
    - pose proof (S x0 y0 F0). cbn in *. rewrite Rabs_R0. lra.
    - pose proof (S x1 y1 F1). cbn in *. rewrite Rabs_R0. lra.
    - pose proof (S x2 y2 F2). cbn in *. rewrite Rabs_R0. lra.
    - unfold dist. lra.
  Qed.
  Lemma emax14 : (14 <= emax)%Z.
  Proof.
    assert (Q : bpow radix2 0 <= bpow radix2 (emax / 2 - 7)) by (eapply Rle_trans; [| exact KB]; simpl; nra). apply le_bpow in Q. pose proof (Z.div_mod emax 2 ltac:(lia)) as Q1. pose proof (Z.mod_pos_bound emax 2 ltac:(lia)). lia.
  Qed.
  Lemma et_u : et <= u / 1024.
  Proof.
    pose proof emax14 as E. unfold eta, uro, Rdiv. change (/ 1024) with (bpow radix2 (-10)). rewrite <- bpow_plus. apply bpow_le. lia.
  Qed.
  Lemma K_lim : K <= bpow radix2 (emax / 2 - 7). Proof. eapply Rle_trans; [| exact KB]. nra. Qed.
  Lemma Ddist : 0 < dist B A.
  Proof. pose proof (norm_pos (vsub B A)) as P. fold (dist B A) in P. pose proof (bpow_gt_0 radix2 (8 - emax)). destruct (Req_dec (dist B A) 0) as [E | E]; [rewrite E in L0; lra | lra]. Qed.
  Lemma AB : A <> B.
  Proof. intro E. pose proof Ddist as D. rewrite E in D. unfold dist in D. replace (vsub B B) with (vzero) in D by (apply V3_eq; simpl; ring). rewrite norm_vzero in D. lra. Qed.
  Lemma half_norm (p : V3) : upto (K / 2) p -> norm p <= 87 / 100 * K.
  Proof.
    intros [X [Y Z]]. apply norm_le_sq; [lra |]. unfold vdot. assert (S : forall x, Rabs x <= K / 2 -> x * x <= K * K / 4). { intros x Hx. rewrite <- (sqr_abs x), Rabs_mult. pose proof (Rabs_pos x). nra. }
    pose proof (S _ X). pose proof (S _ Y). pose proof (S _ Z). nra.
  Qed.
  Lemma half_dist : dist B A <= 174 / 100 * K.
  Proof. pose proof (half_norm A Ua). pose proof (half_norm B Ub). unfold dist. pose proof (norm_close (vsub B A) B) as Q. unfold dist in Q. replace (vsub (vsub B A) B) with (vscale (-1) A) in Q by (apply V3_eq; simpl; ring).
    rewrite norm_scale_abs in Q. replace (Rabs (-1)) with 1 in Q by (unfold Rabs; destruct (Rcase_abs _); lra). lra. Qed.
  Lemma v_fin : fin3 (vminus b a : mat3x1 bf) /\ upto (2 * K) (w3 (vminus b a)).
  Proof.
    pose proof K_lim as KL. pose proof emax14 as E14. pose proof (u_small prec HP) as U1. pose proof (u_pos prec) as U0.
    assert (S : forall p q : bf, fin p -> fin q -> Rabs (val p) <= K / 2 -> Rabs (val q) <= K / 2 -> fin (Bminus mode_NE p q) /\ Rabs (val (Bminus mode_NE p q)) <= 2 * K).
    { intros p q P Q LP LQ. destruct (minus_round prec emax p q P Q) as [R1 _]. destruct (minus_rel prec emax p q) as [e [He E]].
      assert (B1 : Rabs (val p - val q) <= K) by (unfold Rminus; eapply Rle_trans; [apply Rabs_triang |]; rewrite Rabs_Ropp; lra).
      assert (B2 : Rabs (rnd (val p - val q)) <= 2 * K). { rewrite E, Rabs_mult. assert (Rabs (1 + e) <= 2) by (apply Rabs_le; apply Rabs_le_inv in He; lra). pose proof (Rabs_pos (val p - val q)). pose proof (Rabs_pos (1 + e)). nra. }
      destruct R1 as [R1 R2]; [eapply Rle_lt_trans; [exact B2 |]; apply Rle_lt_trans with (bpow radix2 (emax / 2 - 7 + 1)); [rewrite bpow_plus; change (bpow radix2 1) with 2; lra |]; apply bpow_lt; pose proof (Z.div_mod emax 2 ltac:(lia)); pose proof (Z.mod_pos_bound emax 2 ltac:(lia)); lia |].
      split; [exact R1 |]. rewrite R2. exact B2. }
    destruct a as [[a0 a1 a2]], b as [[b0 b1 b2]]. destruct Fa as (Fa0 & Fa1 & Fa2), Fb as (Fb0 & Fb1 & Fb2), Ua as (Ua0 & Ua1 & Ua2), Ub as (Ub0 & Ub1 & Ub2).
    destruct (S b0 a0 Fb0 Fa0 Ub0 Ua0), (S b1 a1 Fb1 Fa1 Ub1 Ua1), (S b2 a2 Fb2 Fa2 Ub2 Ua2). repeat split; assumption.
  Qed.
  Notation v := (vminus b a).
  Lemma v_near : dist (w3 v) (vsub B A) <= u * dist B A.
  Proof. apply minus_dist. apply v_fin. Qed.
  Lemma v_len : (1 - u) * dist B A <= norm (w3 v) <= (1 + u) * dist B A.
  Proof.
    pose proof v_near as V. pose proof (norm_close (w3 v) (vsub B A)) as Q1. pose proof (norm_close (vsub B A) (w3 v)) as Q2. rewrite (dist_sym_any (vsub B A)) in Q2. fold (dist B A) in Q1, Q2. lra.
  Qed.
  Lemma v_good : good_normal (v : mat3x1 bf).
  Proof.
    destruct v_fin as [Fv Uv]. pose proof K_lim as KL. pose proof v_len as [V1 _]. pose proof (u_small prec HP) as U1. pose proof (u_pos prec) as U0. pose proof Ddist as D0. split.
    - split; [exact Fv |]. assert (Q : 2 * K <= bpow radix2 (emax / 2 - 3)). { apply Rle_trans with (bpow radix2 (emax / 2 - 7 + 1)); [rewrite bpow_plus; change (bpow radix2 1) with 2; lra | apply bpow_le; lia]. }
      destruct (v : mat3x1 bf) as [[x y z]]. destruct Uv as (X & Y & Z). cbn in X, Y, Z. cbv zeta. repeat split; lra.
    - rewrite <- norm_sq. apply Rle_trans with (/ 4 * bpow radix2 (8 - emax)).
      + replace (8 - emax)%Z with (6 - emax + 2)%Z by ring. rewrite (bpow_plus _ (6 - emax)). change (bpow radix2 2) with 4. lra.
      + apply Rle_trans with (/ 2 * dist B A * (/ 2 * dist B A)); [nra |]. apply Rmult_le_compat; nra.
  Qed.
  Lemma dir_near : dist (w3 (nrm v)) (PShape.unit (vsub B A)) <= 10 * u.
  Proof.
    destruct (nrm_ieee prec emax lm v HP v_good) as [_ [N _]]. pose proof Ddist as D0. pose proof v_len as [V1 _]. pose proof (u_small prec HP) as U1. pose proof (u_pos prec) as U0.
    assert (X1 : w3 v <> vzero) by (intro E; rewrite E, norm_vzero in V1; assert (0 < (1 - u) * dist B A) by (apply Rmult_lt_0_compat; lra); lra). assert (X2 : vsub B A <> vzero) by (intro E; unfold dist in D0; rewrite E, norm_vzero in D0; lra).
    pose proof (unit_close (w3 v) (vsub B A) X1 X2) as UC. pose proof v_near as VN. fold (dist B A) in UC.
    assert (Q : dist (w3 v) (vsub B A) / dist B A <= u) by (apply Rmult_le_reg_r with (dist B A); [exact D0 |]; unfold Rdiv; rewrite Rmult_assoc, Rinv_l by lra; lra).
    pose proof (dist_tri3 (w3 (nrm v)) (PShape.unit (w3 v)) (PShape.unit (vsub B A))) as T. lra.
  Qed.
  Lemma mag_near m : mat3x1_magnitude v = Some m -> fin m /\ val m <= (1 + u) ^ 6 * dist B A.
  Proof.
    intro E. pose proof v_good as G. destruct v_len as [_ V2]. pose proof (u_pos prec) as U0. destruct (v : mat3x1 bf) as [[x y z]]. injection E as <-. destruct G as [[(Fx & Fy & Fz) (Lx & Ly & Lz)] S]. pose proof (half_k prec emax HP) as [Hk1 Hk2].
    destruct (len3_ok prec emax (emax / 2 - 3) x y z ltac:(lia) ltac:(lia) (conj Fx Lx) (conj Fy Ly) (conj Fz Lz)) as [_ [_ [Fl _]]]. split; [exact Fl |].
    destruct (norm3 prec emax lm x y z (len3 prec emax x y z) HP eq_refl Fl S) as [D _]. apply Rabs_le_inv in D. destruct D as [_ D].
    change (sqrt _) with (norm (w3 (M3x1 (A3 x y z)))) in D. change (val (len3 prec emax x y z) <= (1 + u) ^ 6 * dist B A). pose proof (pow_lt (1 + u) 5 ltac:(lra)).
    apply Rle_trans with ((1 + u) ^ 5 * norm (w3 (M3x1 (A3 x y z)))); [lra |]. replace ((1 + u) ^ 6 * dist B A) with ((1 + u) ^ 5 * ((1 + u) * dist B A)) by ring. apply Rmult_le_compat_l; lra.
  Qed.
  (** a point found by the query at parameter [s] *)
  Lemma seg_near (x : mat3x1 F) (s m m2 : F) : fin3 (x : mat3x1 bf) -> mat3x1_magnitude v = Some m -> mat3x1_magnitude (vminus x a) = Some m2 -> ngt m2 m = false -> nlt s n0 = false ->
    along (nrm v) s a = Ok x -> exists z, s_segment A B z /\ dist z (w3 x) <= 70 * u * K.
  Proof.
    intros Fx Em Em2 G S0 EX. destruct (mag_near m Em) as [Fm Vm]. pose proof (u_small prec HP) as U1. pose proof (u_pos prec) as U0. pose proof Ddist as D0. pose proof et_u as ET.
    pose proof dir_near as DN. assert (Fd : fin3 (nrm v : mat3x1 bf)) by (apply (bnd3_fin prec emax lm 1), (nrm_ieee prec emax lm v HP v_good)).
    assert (XA : dist (w3 x) A <= (1 + 13 * u) * dist B A).
    { assert (Fl : fin m2 /\ fin3 (vminus x a : mat3x1 bf)).
      { destruct a as [[a0 a1 a2]], x as [[x0 x1 x2]]. destruct Fa as (Fa0 & Fa1 & Fa2), Fx as (Fx0 & Fx1 & Fx2). injection Em2 as <-.
        assert (L : fin (len3 prec emax (Bminus mode_NE x0 a0) (Bminus mode_NE x1 a1) (Bminus mode_NE x2 a2))) by (apply (len_fin _ _ _ m); try apply sub_nan; assumption).
        split; [exact L |]. pose proof (sqrt_fin prec emax _ L) as Fs. destruct (plus_fin prec emax _ _ Fs) as [F1 F2]. destruct (plus_fin prec emax _ _ F1) as [F3 F4].
        split; [exact (proj1 (mult_fin prec emax _ _ F3)) |]. split; [exact (proj1 (mult_fin prec emax _ _ F4)) | exact (proj1 (mult_fin prec emax _ _ F2))]. }
      destruct Fl as [Fm2 Fw]. pose proof (minus_dist x a Fw) as W. pose proof (norm_close (vsub (w3 x) A) (w3 (vminus x a))) as Q. rewrite (dist_sym_any (vsub (w3 x) A)) in Q. fold (dist (w3 x) A) in Q.
      assert (Lm : val m2 <= val m). { apply Rnot_lt_le. intro C. apply (ngt_val prec emax lm m2 m Fm2 Fm) in C. congruence. }
      set (w := vminus x a) in *. clearbody w. destruct (Rle_dec (bpow radix2 (6 - emax)) (vdot (w3 w) (w3 w))) as [S | S].
      - destruct w as [[w0 w1 w2]]. destruct (norm3 prec emax lm w0 w1 w2 m2 HP Em2 Fm2 S) as [D _]. apply Rabs_le_inv in D. destruct D as [D _]. change (sqrt _) with (norm (w3 (M3x1 (A3 w0 w1 w2)))) in D.
        set (n := norm (w3 (M3x1 (A3 w0 w1 w2)))) in *. assert (P5 : (1 + u) ^ 5 - 1 <= 51 / 10 * u) by (cbn [pow]; nra). assert (P6 : (1 + u) ^ 6 <= 1 + 61 / 10 * u) by (cbn [pow]; nra).
        assert (N0 : 0 <= n) by apply norm_pos. assert (n * (1 - 51 / 10 * u) <= (1 + 61 / 10 * u) * dist B A) by nra.
        assert (DX : 0 <= dist (w3 x) A) by apply norm_pos. assert (dist (w3 x) A * (1 - u) * (1 - 51 / 10 * u) <= n * (1 - 51 / 10 * u)) by (apply Rmult_le_compat_r; lra).
        apply Rmult_le_reg_r with ((1 - u) * (1 - 51 / 10 * u)); [apply Rmult_lt_0_compat; lra |]. apply Rle_trans with ((1 + 61 / 10 * u) * dist B A); [lra |]. 
        replace ((1 + 13 * u) * dist B A * ((1 - u) * (1 - 51 / 10 * u))) with ((1 + 13 * u) * ((1 - u) * (1 - 51 / 10 * u)) * dist B A) by ring. apply Rmult_le_compat_r; [lra |]. nra.
      - apply Rnot_le_lt in S. assert (N : norm (w3 w) <= / 2 * dist B A).
        { apply norm_le_sq; [lra |]. left. eapply Rlt_le_trans; [exact S |]. apply Rle_trans with (/ 4 * bpow radix2 (8 - emax)); [| nra]. replace (8 - emax)%Z with (6 - emax + 2)%Z by ring. rewrite (bpow_plus _ (6 - emax)). change (bpow radix2 2) with 4. lra. }
        assert (DX : 0 <= dist (w3 x) A) by apply norm_pos. nra. }
    assert (Fs : fin s /\ norm (vsub (vsub (w3 x) A) (vscale (val s) (w3 (nrm v)))) <= u * (val s * norm (w3 (nrm v))) + 1002 / 1000 * u * norm (w3 x) + 2 * (u / 1024) /\ 0 <= val s).
    { set (d := nrm v) in *. clearbody d. destruct a as [[a0 a1 a2]], x as [[x0 x1 x2]], d as [[d0 d1 d2]]. destruct Fa as (Fa0 & Fa1 & Fa2), Fx as (Fx0 & Fx1 & Fx2), Fd as (Fd0 & Fd1 & Fd2).
      unfold along in EX. cbn in EX. injection EX as <- <- <-.
      assert (C : forall p q : bf, fin q -> fin (Bplus mode_NE (Bmult mode_NE p s) q) -> fin s /\
        Rabs (val (Bplus mode_NE (Bmult mode_NE p s) q) - val q - val s * val p) <= u * Rabs (val s * val p) + 1002 / 1000 * u * Rabs (val (Bplus mode_NE (Bmult mode_NE p s) q)) + u / 1024).
      { intros p q Q H. destruct (plus_fin prec emax _ _ H) as [H1 _]. destruct (mult_fin prec emax _ _ H1) as [H2 H3]. split; [exact H3 |].
        destruct (plus_round prec emax _ q H1 Q) as [R1 R2]. destruct (R1 (R2 H)) as [_ V]. destruct (plus_rel prec emax (Bmult mode_NE p s) q) as [e [He E]]. destruct (mult_round prec emax p s H2 H3) as [R3 R4]. destruct (R3 (R4 H1)) as [_ V'].
        destruct (rnd_err prec emax (val p * val s)) as (f & h & Hf & Hh & E'). rewrite V, E. set (y := val (Bmult mode_NE p s)) in *. rewrite V', E' in *. clear V V' E E' R1 R2 R3 R4.
        set (g := val p * val s) in *. replace (val s * val p) with g by (unfold g; ring). set (z := (g * (1 + f) + h + val q)).
        replace (z * (1 + e) - val q - g) with (g * f + h + z * e) by (unfold z; ring). eapply Rle_trans; [apply Rabs_triang |]. eapply Rle_trans; [apply Rplus_le_compat_r, Rabs_triang |]. rewrite !Rabs_mult.
        assert (Z1 : Rabs z * Rabs e <= 1002 / 1000 * u * (Rabs z * Rabs (1 + e))).
        { assert (1 - / 1024 <= Rabs (1 + e)) by (apply Rabs_le_inv in He; rewrite Rabs_pos_eq; lra). pose proof (Rabs_pos z). pose proof (Rabs_pos e). 
          apply Rle_trans with (Rabs z * u); [apply Rmult_le_compat_l; lra |]. replace (1002 / 1000 * u * (Rabs z * Rabs (1 + e))) with (Rabs z * (1002 / 1000 * u * Rabs (1 + e))) by ring. apply Rmult_le_compat_l; [assumption |]. nra. }
        assert (Rabs g * Rabs f <= u * Rabs g) by (rewrite Rmult_comm; apply Rmult_le_compat_r; [apply Rabs_pos | exact Hf]). lra. }
      destruct (C d0 a0 Fa0 Fx0) as [Fs C0], (C d1 a1 Fa1 Fx1) as [_ C1], (C d2 a2 Fa2 Fx2) as [_ C2]. split; [exact Fs |].
      assert (S1 : 0 <= val s). { apply Rnot_lt_le. intro L. assert (nlt s n0 = true); [| congruence]. apply (nlt_iff O). change (xlt (b2x prec emax s) (b2x prec emax (@n0 F))). rewrite (n0_x prec emax lm), (fin_x prec emax s Fs). exact L. }
      split; [| exact S1]. replace (u * (val s * norm (w3 (M3x1 (A3 d0 d1 d2))))) with (u * norm (vscale (val s) (w3 (M3x1 (A3 d0 d1 d2))))) by (rewrite norm_scale_abs, (Rabs_pos_eq _ S1); reflexivity).
      apply norm_split; try lra; assumption. }
    destruct Fs as (Fs & HE & S1). apply (seg_core A B (w3 x) (w3 (nrm v)) (val s) u K AB); try assumption; [lra | apply half_norm; exact Ua | exact half_dist].
  Qed.
End SegF.

Section PrismL.
  Context (prec emax : Z) {Hp : Prec_gt_0 prec} {Hm : Prec_lt_emax prec emax} (lm : libm (binary_float prec emax)).
  Notation bf := (binary_float prec emax).
  Notation val := (@B2R prec emax).
  Notation fin x := (is_finite (x : bf) = true).
  Notation u := (uro prec).
  Notation F := (@Ieee prec emax Hp Hm lm).
  Notation w3 v := (v3 (v : mat3x1 bf)).
  Variables (a b c : mat3x1 F) (h : F) (K : R).
  Notation A := (w3 a). Notation B := (w3 b). Notation C := (w3 c). Notation H := (val h).
  Hypotheses (HP : (9 < prec)%Z) (K1 : 1 <= K) (KB : K * K <= bpow radix2 (emax / 2 - 7))
    (Fa : fin3 (a : mat3x1 bf)) (Fb : fin3 (b : mat3x1 bf)) (Fc : fin3 (c : mat3x1 bf)) (Fh : fin h)
    (Ua : upto K A) (Ub : upto K B) (Uc : upto K C) (H0 : bpow radix2 (11 - emax) <= H) (HK : H <= K)
    (ok : tri_ok A B C) (TK : prism_tol prec K A B C <= K).
  Variables (p q : mat3x1 F) (e f : F) (s l : shape F).
  Hypotheses (Ms : mk_prism a b c h e s) (Ml : mk_line p q f l) (Fp : fin3 (p : mat3x1 bf)) (Fq : fin3 (q : mat3x1 bf)).
  Notation P := (w3 p). Notation Q := (w3 q).
  Notation S := (s_prism A B C H).
  Notation tol := (prism_tol prec K A B C).
  Notation O := (ieee_ordered prec emax lm).
  Notation fts := (ftests prec emax lm a b c h).
  Lemma core_line : core s l = core l s /\ exists t d, core s l = triprism_line t (shape_get_shape_data (SLine d)) /\ triprism_tests t = Ok fts /\ ln_a d = p /\ ln_b d = q.
  Proof.
    destruct (prism_any a b c h e s) as [E _]. specialize (E Ms). destruct (line_any p q f l) as [E' _]. specialize (E' Ml). rewrite E, E'. split; [reflexivity |].
    eexists. eexists. split; [reflexivity |]. split; [| split; reflexivity]. unfold triprism_tests. cbn [tp_nh tp_base tp_base2]. unfold ftests.
    destruct (hvec a b c h) as [[]], a as [[]], b as [[]], c as [[]]. reflexivity.
  Qed.
  Lemma hit_sym : shape_get_intersect s l = shape_get_intersect l s.
  Proof. destruct core_line as [CS _]. rewrite !(intersect_core O), (overlap_sym O l s), <- CS. reflexivity. Qed.
  Lemma hits_core x : shape_get_intersect s l = Ok (true, Some x) \/ shape_get_intersect l s = Ok (true, Some x) -> core s l = Ok (true, Some x).
  Proof.
    destruct core_line as [CS _]. rewrite !(intersect_core O), (overlap_sym O l s), <- CS. intro X. destruct (overlap s l); [tauto | destruct X; discriminate].
  Qed.
  (** every hit at a finite point is near both the prism and the segment *)
  Lemma line_sound x : upto (K / 2) P -> upto (K / 2) Q -> bpow radix2 (8 - emax) <= dist Q P * dist Q P ->
    shape_get_intersect s l = Ok (true, Some x) \/ shape_get_intersect l s = Ok (true, Some x) -> fin3 (x : mat3x1 bf) ->
    (exists y, S y /\ dist y (w3 x) <= tol) /\ exists z, s_segment P Q z /\ dist z (w3 x) <= 70 * u * K.
  Proof.
    intros Up Uq L0 X Fx. apply hits_core in X. destruct core_line as [_ (t & d & E & T & <- & <-)]. rewrite E in X. destruct (line_inv t d fts x T X) as [I W].
    pose proof (u_small prec HP) as U1. pose proof (u_pos prec) as U0.
    assert (G : exists z, s_segment (w3 (ln_a d)) (w3 (ln_b d)) z /\ dist z (w3 x) <= 70 * u * K).
    { assert (Z : forall z, dist z z <= 70 * u * K). { intro z. unfold dist. replace (vsub z z) with vzero by (apply V3_eq; simpl; ring). rewrite norm_vzero. apply Rmult_le_pos; lra. }
      destruct W as [-> | [-> | (m & m2 & r & W1 & W2 & W3 & W4 & W5)]].
      - exists (w3 (ln_a d)). split; [| apply Z]. exists 0. split; [lra |]. apply V3_eq; simpl; ring.
      - exists (w3 (ln_b d)). split; [| apply Z]. exists 1. split; [lra |]. apply V3_eq; simpl; ring.
      - exact (seg_near prec emax lm (ln_a d) (ln_b d) K HP K1 KB Fp Fq Up Uq L0 x r m m2 Fx W1 W2 W3 W4 W5). }
    split; [| exact G]. destruct G as [z [[k [Hk ->]] D]].
    assert (Ux : upto K (w3 x)).
    { destruct (abs_comp_norm (vsub (vadd (w3 (ln_a d)) (vscale k (vsub (w3 (ln_b d)) (w3 (ln_a d))))) (w3 x))) as (X0 & X1 & X2). fold (dist (vadd (w3 (ln_a d)) (vscale k (vsub (w3 (ln_b d)) (w3 (ln_a d))))) (w3 x)) in X0, X1, X2.
      assert (UK : 70 * u * K <= 70 / 1024 * K) by (apply Rmult_le_compat_r; lra).
      assert (G : forall x p q : R, Rabs p <= K / 2 -> Rabs q <= K / 2 -> Rabs (p + k * (q - p) - x) <= 70 / 1024 * K -> Rabs x <= K).
      { intros y r o Hr Ho Hy. apply Rabs_le_inv in Hr, Ho, Hy. apply Rabs_le. pose proof (Rmult_le_pos k (K / 2 - o) ltac:(lra) ltac:(lra)). pose proof (Rmult_le_pos k (K / 2 + o) ltac:(lra) ltac:(lra)). pose proof (Rmult_le_pos (1 - k) (K / 2 - r) ltac:(lra) ltac:(lra)). pose proof (Rmult_le_pos (1 - k) (K / 2 + r) ltac:(lra) ltac:(lra)). lra. }
      destruct Up as (P0 & P1 & P2), Uq as (Q0 & Q1 & Q2). cbn [vsub vadd vscale vx vy vz] in X0, X1, X2. split; [exact (G _ _ _ P0 Q0 (Rle_trans _ _ _ X0 (Rle_trans _ _ _ D UK))) | split; [exact (G _ _ _ P1 Q1 (Rle_trans _ _ _ X1 (Rle_trans _ _ _ D UK))) | exact (G _ _ _ P2 Q2 (Rle_trans _ _ _ X2 (Rle_trans _ _ _ D UK)))]]. }
    apply (pass_close prec emax lm a b c h K HP K1 KB Fa Fb Fc Fh Ua Ub Uc H0 HK ok TK x Fx Ux I).
  Qed.
  (** an end of the segment deep inside the prism is found *)
  Lemma end_overlap r : r = p \/ r = q -> upto K (w3 r) -> deep S tol (w3 r) -> overlap s l = true.
  Proof.
    intros R Ur D. assert (Fr : fin3 (r : mat3x1 bf)) by (destruct R as [-> | ->]; assumption). destruct (prism_any a b c h e s) as [E _]. specialize (E Ms). destruct (line_any p q f l) as [E' _]. specialize (E' Ml). rewrite E, E'.
    unfold overlap, shape_get_bound. rewrite ibb. cbn [tp_bound ln_bound]. rewrite (rholds_meet prec emax lm _ _ (w3 r)); [reflexivity | |].
    - apply (hull_in prec emax lm a b c h K HP K1 KB Fa Fb Fc Fh Ua Ub Uc H0 HK ok TK r Fr Ur D).
    - apply hull_holds; [intros z [<- | [<- | []]]; assumption |]. apply segment_hull. destruct R as [-> | ->]; [exists 0 | exists 1]; (split; [lra |]); apply V3_eq; simpl; ring.
  Qed.
  Lemma start_deep : upto K P -> deep S tol P -> shape_get_intersect s l = Ok (true, Some p) /\ shape_get_intersect l s = Ok (true, Some p).
  Proof.
    intros Up D. pose proof (end_overlap p (or_introl eq_refl) Up D) as OV. rewrite !(intersect_core O), (overlap_sym O l s), OV. destruct core_line as [<- (t & d & E & T & Ea & Eb)]. rewrite E.
    assert (I : all_inside fts p = Ok true) by exact (deep_pass prec emax lm a b c h K HP K1 KB Fa Fb Fc Fh Ua Ub Uc H0 HK ok TK p Fp Up D).
    unfold triprism_line. cbn [shape_get_shape_data]. rewrite vec_at_data. cbn [bind]. rewrite <- (app_nil_r (vec_data (ln_b d))), vec_at_data3. cbn [bind]. rewrite T, Ea, Eb. cbn [bind]. rewrite I.
    destruct (all_inside_ok fts q) as [iq ->]. cbn [bind]. split; reflexivity.
  Qed.
  Lemma stop_deep : upto K Q -> deep S tol Q -> exists x, (x = p \/ x = q) /\ shape_get_intersect s l = Ok (true, Some x) /\ shape_get_intersect l s = Ok (true, Some x).
  Proof.
    intros Uq D. pose proof (end_overlap q (or_intror eq_refl) Uq D) as OV. rewrite !(intersect_core O), (overlap_sym O l s), OV. destruct core_line as [<- (t & d & E & T & Ea & Eb)]. rewrite E.
    assert (I : all_inside fts q = Ok true) by exact (deep_pass prec emax lm a b c h K HP K1 KB Fa Fb Fc Fh Ua Ub Uc H0 HK ok TK q Fq Uq D).
    unfold triprism_line. cbn [shape_get_shape_data]. rewrite vec_at_data. cbn [bind]. rewrite <- (app_nil_r (vec_data (ln_b d))), vec_at_data3. cbn [bind]. rewrite T, Ea, Eb. cbn [bind]. rewrite I.
    destruct (all_inside_ok fts p) as [ip ->]. cbn [bind]. destruct ip; [exists p | exists q]; auto.
  Qed.
  Lemma line_far : upto (K / 2) P -> upto (K / 2) Q -> bpow radix2 (8 - emax) <= dist Q P * dist Q P ->
    (forall z, s_segment P Q z -> far S (tol + 70 * u * K) z) ->
    forall r, r = shape_get_intersect s l \/ r = shape_get_intersect l s -> r = Ok (false, None) \/ exists x, r = Ok (true, Some x) /\ ~ fin3 (x : mat3x1 bf).
  Proof.
    intros Up Uq L0 D r R. destruct core_line as [CS (t & d & E & T & Ea & Eb)].
    assert (G : exists hh, r = Ok hh /\ answer hh).
    { assert (GG : good (core s l)) by (rewrite E; apply triprism_line_good). destruct GG as [hh [E1 A1]].
      assert (R' : r = if overlap s l then core s l else Ok miss) by (destruct R as [-> | ->]; rewrite (intersect_core O); [| rewrite (overlap_sym O l s), <- CS]; reflexivity).
      rewrite R'. destruct (overlap s l); [exists hh; split; [exact E1 | exact A1] |]. destruct (@good_miss F) as [h' [H' Hh]]. exists h'. split; assumption. }
    destruct G as [[[] o] [-> [A1 A2]]].
    - right. destruct (A1 eq_refl) as [x Ex]. cbn in Ex. subst o. exists x. split; [reflexivity |]. intro Fx.
      assert (X : shape_get_intersect s l = Ok (true, Some x) \/ shape_get_intersect l s = Ok (true, Some x)) by (destruct R as [R | R]; rewrite <- R; auto).
      destruct (line_sound x Up Uq L0 X Fx) as [[y [Sy Dy]] [z [Sz Dz]]]. specialize (D z Sz y Sy). pose proof (dist_tri3 y (w3 x) z) as TR. rewrite (dist_sym_any (w3 x) z) in TR. lra.
    - left. destruct o as [x |]; [| reflexivity]. assert (false = true) by (apply A2; eexists; reflexivity). discriminate.
  Qed.
End PrismL.
