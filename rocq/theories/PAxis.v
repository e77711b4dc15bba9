(** PAxis.v — planes perpendicular to an axis against any data in IEEE arithmetic (C120). *)
From Coq Require Import Reals List ZArith NArith Bool Lra Lia Psatz.
From Flocq Require Import Core Relative Plus_error BinarySingleNaN.
Import ListNotations.
From Verif Require Import Base Num Vec Mat Bound Shape Intersect Float FloatFacts FloatRound Order SpecMat SpecRound SpecGeom SpecBound SpecBuild SpecInt
  PMat PBound PShape PInter PBuild PRound PRound2 PRound3 ExactFacts PGeo1 PGeo2 PIeee1 PIeee2 PIeee3 PIeee5 PIeee6 PNan PMirror1 PMirror2 PNan2 PInt PInt2 PSqr PIntQ PIntQ2.
Local Open Scope R_scope.

Section Axis.
  Context (prec emax : Z) {Hp : Prec_gt_0 prec} {Hm : Prec_lt_emax prec emax} (lm : libm (binary_float prec emax)).
  Notation bf := (binary_float prec emax).
  Notation fmt := (SpecFloat.fexp prec emax).
  Notation rnd := (round radix2 fmt ZnearestE).
  Notation F := (@Ieee prec emax Hp Hm lm).
  Notation val := (@B2R prec emax).
  Notation fin x := (is_finite (x : bf) = true).
  Notation u := (uro prec).
  Notation et := (eta prec emax).
  Notation X := (X prec emax).
  Notation X3 := (X3 prec emax lm).
  Notation vec := (mat3x1 F).
  Notation v3 v := (v3 (v : mat3x1 bf)).
  Instance vexp : Valid_exp fmt := fexp_correct prec emax Hp.
  Lemma min_pos (x : bf) : fin x -> 0 < val x -> bpow radix2 (3 - emax - prec) <= val x.
  Proof.
    intros Fx P. rewrite <- (Rabs_pos_eq (val x)) by lra. apply abs_B2R_ge_emin. destruct x; try discriminate; try reflexivity. simpl in P. lra.
  Qed.
  Lemma rnd_min v : bpow radix2 (3 - emax - prec) < 2 * v -> bpow radix2 (3 - emax - prec) <= rnd v.
  Proof.
    intro H. apply round_N_ge_midp; [exact vexp | apply (bpow_fmt prec emax), Z.le_refl |]. rewrite pred_eq_pos by apply bpow_ge_0. unfold pred_pos. rewrite mag_bpow.
    replace (3 - emax - prec + 1 - 1)%Z with (3 - emax - prec)%Z by lia. rewrite Req_bool_true by reflexivity.
    assert (E : fmt (3 - emax - prec) = (3 - emax - prec)%Z) by (unfold SpecFloat.fexp, SpecFloat.emin; unfold Prec_gt_0 in Hp; lia). rewrite E. lra.
  Qed.
  Lemma div_sign1 (x y : bf) : fin x -> fin y -> val y < 0 -> Rabs (val y) < 2 -> 0 < val x -> nlt (Bdiv mode_NE x y : F) n0 = true.
  Proof.
    intros Fx Fy Ny By Px. destruct (Rle_dec (bpow radix2 (4 - emax - prec)) (val x)) as [L | L]; [apply (div_sign prec emax lm x y Fx Fy Ny ltac:(lra)), L |].
    pose proof (min_pos x Fx Px) as Mx. rewrite Rabs_left in By by exact Ny.
    destruct (fv_lit_0 prec emax) as [F0 V0]. pose proof (Bdiv_correct prec emax Hp Hm mode_NE x y ltac:(lra)) as C. change (round_mode mode_NE) with ZnearestE in C.
    assert (Q : bpow radix2 (3 - emax - prec) <= rnd (- (val x / val y))).
    { apply rnd_min. assert (Iy : 1 < 2 * / - val y) by (apply Rmult_lt_reg_r with (- val y); [lra |]; rewrite Rmult_assoc, Rinv_l by lra; lra). replace (2 * - (val x / val y)) with (val x * (2 * / - val y)) by (field; lra). assert (B0 := bpow_gt_0 radix2 (3 - emax - prec)). nra. }
    rewrite (rnd_opp prec emax) in Q. assert (B0 := bpow_gt_0 radix2 (3 - emax - prec)).
    destruct (Rlt_bool_spec (Rabs (rnd (val x / val y))) (bpow radix2 emax)) as [L' | L'].
    - destruct C as (V & Fd & _). rewrite Fx in Fd. apply (nlt_val prec emax lm _ _ Fd F0). change (val (@n0 F)) with (val (@f_lit prec emax Hp Hm 0 1)). rewrite V0, V. lra.
    - assert (Sx : Bsign x = false). { destruct x as [s | s | | s m e h]; try discriminate Fx; simpl in Px; [lra |]. simpl. destruct s; [| reflexivity]. assert (F2R (Float radix2 (Z.neg m) e) < 0) by (apply F2R_lt_0; simpl; lia). simpl in Px. lra. }
      assert (Sy : Bsign y = true). { destruct y as [s | s | | s m e h]; try discriminate Fy; simpl in Ny; [lra |]. simpl. destruct s; [reflexivity |]. assert (0 < F2R (Float radix2 (Z.pos m) e)) by (apply F2R_gt_0; simpl; lia). simpl in Ny. lra. }
      rewrite Sx, Sy in C. cbn [xorb binary_overflow] in C. destruct (Bdiv mode_NE x y) as [s | s | | s m e h]; try discriminate C. injection C as ->. apply (nlt_F prec emax lm). change (@n0 F) with (@f_lit prec emax Hp Hm 0 1). rewrite (fin_x prec emax _ F0). exact I.
  Qed.
  (** a difference of floats has the right sign *)
  Lemma sub_sign (x y : F) : fin x -> fin y -> fin (nsub F x y) ->
    val (nsub F x y) = rnd (val x - val y) /\ (val (nsub F x y) < 0 <-> val x < val y) /\ (0 < val (nsub F x y) <-> val y < val x).
  Proof.
    intros Fx Fy Fd. destruct (minus_round prec emax (x : bf) (y : bf) Fx Fy) as [A B]. specialize (B Fd). destruct (A B) as [_ V]. cbn [nsub Ieee]. split; [exact V |]. rewrite V.
    assert (Nz : val x - val y <> 0 -> rnd (val x - val y) <> 0).
    { intro H. unfold Rminus in *. apply round_plus_neq_0; [exact vexp | | apply valid_rnd_N | apply generic_format_B2R | apply generic_format_opp, generic_format_B2R | exact H]. change fmt with (FLT_exp (3 - emax - prec) prec). auto with typeclass_instances. }
    assert (P : val y < val x -> 0 < rnd (val x - val y)). { intro H. assert (0 <= rnd (val x - val y)) by (rewrite <- (rnd_0 prec emax); apply (rnd_le prec emax); lra). specialize (Nz ltac:(lra)). lra. }
    assert (Q : val x < val y -> rnd (val x - val y) < 0). { intro H. assert (rnd (val x - val y) <= 0) by (rewrite <- (rnd_0 prec emax); apply (rnd_le prec emax); lra). specialize (Nz ltac:(lra)). lra. }
    assert (E : val x = val y -> rnd (val x - val y) = 0) by (intros ->; rewrite Rminus_diag_eq by reflexivity; apply (rnd_0 prec emax)).
    destruct (Rtotal_order (val x) (val y)) as [H | [H | H]]; [specialize (Q H) | specialize (E H) | specialize (P H)]; split; split; intro; lra.
  Qed.
  (** each component of a computed unit vector *)
  Lemma nrm_comp (n : vec) : (9 < prec)%Z -> good_normal (n : mat3x1 bf) -> let near (x : F) v := fin x /\ Rabs (val x - v) <= 7 * u * Rabs v + et in
    near (c0 (nrm n)) (vx (s_unit (v3 n))) /\ near (c1 (nrm n)) (vy (s_unit (v3 n))) /\ near (c2 (nrm n)) (vz (s_unit (v3 n))).
  Proof.
    intros P [[Fn Ln] HS] near. destruct n as [[a b c]]. destruct Fn as [Fa [Fb Fc]]. destruct Ln as [La [Lb Lc]]. pose proof (half_k prec emax P) as [Hk1 Hk2]. set (k := (emax / 2 - 3)%Z) in *.
    destruct (len3_ok prec emax k a b c ltac:(lia) ltac:(lia) (conj Fa La) (conj Fb Lb) (conj Fc Lc)) as [_ [_ [Fl _]]].
    destruct (norm3 prec emax lm a b c (len3 prec emax a b c) P eq_refl Fl HS) as [_ [x [y [z [E [[Fx Ex] [[Fy Ey] [[Fz Ez] _]]]]]]]].
    rewrite normalize_nrm in E. apply (f_equal (fun r => match r with Ok (Some v) => v | _ => M3x1 (A3 x y z) end)) in E. rewrite E. clear E.
    change (val a * val a + val b * val b + val c * val c) with (vdot (v3 (M3x1 (A3 a b c))) (v3 (M3x1 (A3 a b c)))) in *. set (nv := v3 (M3x1 (A3 a b c))) in *. change (sqrt (vdot nv nv)) with (norm nv) in *.
    assert (S0 : 0 < vdot nv nv) by (eapply Rlt_le_trans; [apply bpow_gt_0 | exact HS]). assert (NZ : nv <> vzero) by (intro H; rewrite H in S0; unfold vdot, vzero in S0; simpl in S0; lra). pose proof (norm_nz nv NZ) as NP.
    assert (Ux : vx (s_unit nv) = val a / norm nv) by (unfold s_unit, vscale; simpl; field; lra). assert (Uy : vy (s_unit nv) = val b / norm nv) by (unfold s_unit, vscale; simpl; field; lra). assert (Uz : vz (s_unit nv) = val c / norm nv) by (unfold s_unit, vscale; simpl; field; lra).
    rewrite Ux, Uy, Uz. cbn [c0 c1 c2]. split; [split; [exact Fx | exact Ex] |]. split; split; assumption.
  Qed.
  Lemma near_sign (x : F) v : (9 < prec)%Z -> Rabs v <= 1 -> fin x -> Rabs (val x - v) <= 7 * u * Rabs v + et -> v = 0 \/ bpow radix2 (2 - emax) <= Rabs v -> sgn_of (val x) v /\ Rabs (val x) < 2.
  Proof.
    intros P B Fx E C. pose proof (u_small prec P) as U. pose proof (u_pos prec) as U0. pose proof (et_pos prec emax) as T0. pose proof (et_small prec emax P) as T. destruct C as [-> | C].
    - rewrite Rabs_R0, Rminus_0_r in E. rewrite Rmult_0_r, Rplus_0_l in E.
      assert (Z : val x = 0).
      { destruct (Rtotal_order (val x) 0) as [H | [H | H]]; [exfalso | exact H | exfalso].
        - pose proof (min_pos (Bopp x) ltac:(rewrite is_finite_Bopp; exact Fx) ltac:(rewrite B2R_Bopp; lra)) as Q. rewrite B2R_Bopp in Q. rewrite Rabs_left in E by exact H. unfold eta in E. assert (bpow radix2 (2 - emax - prec) < bpow radix2 (3 - emax - prec)) by (apply bpow_lt; lia). lra.
        - pose proof (min_pos x Fx H) as Q. rewrite Rabs_pos_eq in E by lra. unfold eta in E. assert (bpow radix2 (2 - emax - prec) < bpow radix2 (3 - emax - prec)) by (apply bpow_lt; lia). lra. }
      rewrite Z, Rabs_R0. split; [split; split; intro; lra | lra].
    - assert (Eu : et = u * bpow radix2 (2 - emax)) by (unfold eta, uro; rewrite <- bpow_plus; f_equal; lia). assert (Q : 7 * u * Rabs v + et <= 8 * u * Rabs v). { rewrite Eu. assert (u * bpow radix2 (2 - emax) <= u * Rabs v) by (apply Rmult_le_compat_l; lra). lra. }
      assert (V0 : 0 < Rabs v) by (eapply Rlt_le_trans; [apply bpow_gt_0 | exact C]). assert (Q2 : 8 * u * Rabs v <= / 2 * Rabs v) by (apply Rmult_le_compat_r; lra).
      apply Rle_trans with (2 := Q) in E || (assert (E' := Rle_trans _ _ _ E Q)). assert (E2 : Rabs (val x - v) <= / 2 * Rabs v) by lra. apply Rabs_le_inv in E2.
      split; [| apply Rabs_def1; unfold Rabs in *; destruct (Rcase_abs v); lra]. unfold Rabs in E2, V0. destruct (Rcase_abs v); split; split; intro; lra.
  Qed.
  Lemma dot_axis_fin (n v : vec) : good_normal (n : mat3x1 bf) -> axial (v3 n) -> fin3 (v : mat3x1 bf) -> fin (vdotn (nrm n) v) /\ val (vdotn (nrm n) v) = vdot (s_unit (v3 n)) (v3 v).
  Proof. intros Gn An Fv. apply (dot_axis prec emax lm); [apply (nrm_axial prec emax lm); assumption | apply axial_unit, An | exact Fv]. Qed.
  Lemma vdotn_comm (v w : vec) : vdotn v w = vdotn w v.
  Proof. unfold vdotn. rewrite (nmul_comm_F prec emax lm (c0 v)), (nmul_comm_F prec emax lm (c1 v)), (nmul_comm_F prec emax lm (c2 v)). reflexivity. Qed.
  Lemma unit_axial_comp n : axial n -> let w := s_unit n in (Rabs (vx w) = 1 /\ vy w = 0 /\ vz w = 0) \/ (Rabs (vy w) = 1 /\ vx w = 0 /\ vz w = 0) \/ (Rabs (vz w) = 1 /\ vx w = 0 /\ vy w = 0).
  Proof.
    intros A w. pose proof (norm_nz _ (proj1 A)) as Q. pose proof (axial_norm _ A) as NN. assert (I := Rinv_0_lt_compat _ Q). unfold w, s_unit, vscale. cbn [vx vy vz]. destruct A as [_ [[Y Z] | [[Y Z] | [Y Z]]]]; rewrite Y, Z in NN |- *; rewrite !Rabs_R0, ?Rplus_0_l, ?Rplus_0_r in NN; rewrite !Rmult_0_r; [left | right; left | right; right];
      (split; [| split; reflexivity]); rewrite Rabs_mult, (Rabs_pos_eq (/ norm n)), <- NN by lra; apply Rinv_l; lra.
  Qed.
  (** ---- the signed distance from such a plane, rounded once ---- *)
  Lemma gap_axis (n p q : vec) : (9 < prec)%Z -> good_normal (n : mat3x1 bf) -> axial (v3 n) -> moderate (p : mat3x1 bf) -> moderate (q : mat3x1 bf) ->
    let g := nsub F (vdotn (nrm n) p) (vdotn (nrm n) q) in let d := vdot (s_unit (v3 n)) (vsub (v3 p) (v3 q)) in
    fin g /\ val g = rnd d /\ (val g < 0 <-> d < 0) /\ (0 < val g <-> 0 < d).
  Proof.
    intros P Gn An Mp Mq g d. destruct (dot_axis_fin n p Gn An (proj1 Mp)) as [P1 P2]. destruct (dot_axis_fin n q Gn An (proj1 Mq)) as [Q1 Q2].
    assert (Bd : forall v : vec, moderate (v : mat3x1 bf) -> Rabs (vdot (s_unit (v3 n)) (v3 v)) <= bpow radix2 (emax / 2 - 3)).
    { intros v Mv. destruct v as [[x y z]]. destruct Mv as [_ (B0 & B1 & B2)]. unfold vdot. cbn [SpecBuild.v3 vx vy vz]. destruct (unit_axial_comp _ An) as [(A1 & -> & ->) | [(A1 & -> & ->) | (A1 & -> & ->)]]; rewrite !Rmult_0_l, ?Rplus_0_l, ?Rplus_0_r, Rabs_mult, A1, Rmult_1_l; assumption. }
    assert (Fg : fin g).
    { apply (minus_round prec emax (vdotn (nrm n) p : bf) (vdotn (nrm n) q : bf) P1 Q1). rewrite P2, Q2. pose proof (half_k prec emax P) as [Hk1 Hk2].
      apply Rle_lt_trans with (bpow radix2 (emax / 2 - 2)); [| apply bpow_lt; lia]. apply Rabs_le. assert (R0 : rnd (bpow radix2 (emax / 2 - 2)) = bpow radix2 (emax / 2 - 2)) by (apply round_generic; [apply valid_rnd_N | apply (bpow_fmt prec emax); unfold Prec_gt_0 in Hp; lia]).
      assert (B2 : bpow radix2 (emax / 2 - 2) = 2 * bpow radix2 (emax / 2 - 3)) by (replace (emax / 2 - 2)%Z with (1 + (emax / 2 - 3))%Z by lia; rewrite bpow_plus; reflexivity).
      pose proof (Rabs_le_inv _ _ (Bd p Mp)). pose proof (Rabs_le_inv _ _ (Bd q Mq)). rewrite <- R0 at 1 2. rewrite <- (rnd_opp prec emax). split; apply (rnd_le prec emax); lra. }
    destruct (sub_sign _ _ P1 Q1 Fg) as (S1 & S2 & S3). rewrite P2, Q2 in *. unfold g, d in *. rewrite vdot_sub_r. split; [exact Fg |]. split; [exact S1 |]. split; [rewrite S2 | rewrite S3]; split; intro; lra.
  Qed.
  Theorem sphere_plane_axis (c o n : vec) (r : F) e f (x y : shape F) : (9 < prec)%Z -> good_normal (n : mat3x1 bf) -> axial (v3 n) -> moderate (c : mat3x1 bf) -> moderate (o : mat3x1 bf) -> fin r -> mk_sphere c r e x -> mk_plane o n f y ->
    let d := vdot (s_unit (v3 n)) (vsub (v3 c) (v3 o)) in
    (rnd d <= val r -> exists p, shape_get_intersect x y = Ok (true, Some p)) /\ (val r < rnd d -> shape_get_intersect x y = Ok (false, None)).
  Proof.
    intros P Gn An Mc Mo Fr Mx My d. apply sphere_any in Mx. apply plane_any in My. rewrite (intersect_core (ieee_ordered prec emax lm)), My. rewrite (plane_overlap (ieee_ordered prec emax lm)) by reflexivity. rewrite Mx. cbn [core]. rewrite (sphere_plane_any (Nm := F)). cbv zeta.
    destruct (gap_axis n c o P Gn An Mc Mo) as (G1 & G2 & _). fold d in G2. split; intro H.
    - rewrite (ngt_val_false prec emax lm _ _ G1 Fr) by (rewrite G2; exact H). eexists. reflexivity.
    - rewrite (proj2 (ngt_val prec emax lm _ _ G1 Fr)) by (rewrite G2; exact H). reflexivity.
  Qed.
  Theorem plane_point_axis (o n p : vec) e f (x y : shape F) : (9 < prec)%Z -> good_normal (n : mat3x1 bf) -> axial (v3 n) -> moderate (p : mat3x1 bf) -> moderate (o : mat3x1 bf) -> fin e -> mk_plane o n e x -> mk_point p f y ->
    let d := vdot (s_unit (v3 n)) (vsub (v3 p) (v3 o)) in
    (Rabs (rnd d) <= Rabs (val e) -> shape_get_intersect x y = Ok (true, Some p)) /\ (Rabs (val e) < Rabs (rnd d) -> shape_get_intersect x y = Ok (false, None)).
  Proof.
    intros P Gn An Mp Mo Fe Mx My d. apply plane_any in Mx. apply point_any in My. rewrite (intersect_symmetric (ieee_ordered prec emax lm)) by (rewrite Mx, My; discriminate). rewrite (intersect_core (ieee_ordered prec emax lm)), Mx.
    rewrite (plane_overlap (ieee_ordered prec emax lm)) by reflexivity. rewrite My. cbn [core]. rewrite (plane_point_any (Nm := F)).
    destruct (gap_axis n o p P Gn An Mo Mp) as (G1 & G2 & _). destruct (nabs_val prec emax lm e Fe) as [A1 A2]. pose proof (within_zero prec emax lm (nabs F e) _ ltac:(lia) A1 G1) as W. rewrite A2, G2 in W.
    assert (E : Rabs (rnd (vdot (s_unit (v3 n)) (vsub (v3 o) (v3 p)))) = Rabs (rnd d)). { unfold d. rewrite <- (Rabs_Ropp (rnd (vdot _ (vsub (v3 p) _)))), <- (rnd_opp prec emax). f_equal. f_equal. rewrite !vdot_sub_r. ring. } rewrite E in W. split; intro H.
    - rewrite (proj2 W H). reflexivity.
    - replace (Shape.within _ _ _) with false; [reflexivity |]. symmetry. apply not_true_is_false. intro T. apply W in T. lra.
  Qed.
  (** ---- rays: decided exactly ---- *)
  Theorem ray_plane_axis (p d o n : vec) e f (x y : shape F) : (9 < prec)%Z -> moderate (p : mat3x1 bf) -> good_normal (d : mat3x1 bf) -> moderate (o : mat3x1 bf) -> good_normal (n : mat3x1 bf) -> axial (v3 n) ->
    vdot (v3 n) (v3 d) = 0 \/ bpow radix2 (2 - emax) * norm (v3 n) * norm (v3 d) <= Rabs (vdot (v3 n) (v3 d)) -> mk_ray p d e x -> mk_plane o n f y ->
    (vdot (v3 n) (v3 d) < 0 -> (meets (s_ray (v3 p) (v3 d)) (s_plane (v3 o) (v3 n)) -> exists z, shape_get_intersect x y = Ok (true, Some z)) /\ (~ meets (s_ray (v3 p) (v3 d)) (s_plane (v3 o) (v3 n)) -> shape_get_intersect x y = Ok (false, None))) /\
    (vdot (v3 n) (v3 d) = 0 -> (s_plane (v3 o) (v3 n) (v3 p) -> shape_get_intersect x y = Ok (true, Some p)) /\ (~ s_plane (v3 o) (v3 n) (v3 p) -> shape_get_intersect x y = Ok (false, None))) /\
    (0 < vdot (v3 n) (v3 d) -> shape_get_intersect x y = Ok (false, None)).
  Proof.
    intros P Mp Gd Mo Gn An Cd Mx My. apply ray_any_eq in Mx. apply plane_any in My. rewrite (intersect_core (ieee_ordered prec emax lm)).
    assert (Ov : overlap x y = true) by (apply (plane_overlap (ieee_ordered prec emax lm)); subst y; reflexivity). rewrite Ov. subst x y. cbn [core]. rewrite (ray_plane_any (Nm := F)). cbv zeta.
    assert (Nn : 0 < norm (v3 n)) by (apply norm_nz, (proj1 An)). assert (Nd : v3 d <> vzero). { intro H. destruct Gd as [_ Gd]. rewrite H in Gd. unfold vdot, vzero in Gd. cbn [vx vy vz] in Gd. pose proof (bpow_gt_0 radix2 (6 - emax)). lra. }
    assert (Nd' := norm_nz _ Nd). assert (In' := Rinv_0_lt_compat _ Nn). assert (Id' := Rinv_0_lt_compat _ Nd').
    assert (Fk : fin3 (nrm d : mat3x1 bf)). { destruct (nrm_comp d P Gd) as ((A & _) & (B & _) & (C & _)). destruct (nrm d) as [[a b c]]. split; [exact A | split; [exact B | exact C]]. }
    destruct (dot_axis_fin n (nrm d) Gn An Fk) as [Q1 Q2].
    assert (K : sgn_of (val (vdotn (nrm n) (nrm d))) (vdot (v3 n) (v3 d)) /\ Rabs (val (vdotn (nrm n) (nrm d))) < 2).
    { rewrite Q2. set (q := vdot (s_unit (v3 n)) (s_unit (v3 d))). assert (Eq : q = / norm (v3 n) * / norm (v3 d) * vdot (v3 n) (v3 d)) by (unfold q, s_unit, vdot, vscale; cbn [vx vy vz]; ring).
      assert (Cq : q = 0 \/ bpow radix2 (2 - emax) <= Rabs q).
      { destruct Cd as [Cd | Cd]; [left; rewrite Eq, Cd; ring | right]. rewrite Eq, !Rabs_mult, (Rabs_pos_eq (/ norm (v3 n))), (Rabs_pos_eq (/ norm (v3 d))) by lra.
        apply Rle_trans with (/ norm (v3 n) * / norm (v3 d) * (bpow radix2 (2 - emax) * norm (v3 n) * norm (v3 d))); [right; field; lra | apply Rmult_le_compat_l; [apply Rmult_le_pos; lra | exact Cd]]. }
      assert (Sq : forall t, sgn_of t q -> sgn_of t (vdot (v3 n) (v3 d))). { intros t [[U1 U2] [U3 U4]]. assert (I2 : 0 < / norm (v3 n) * / norm (v3 d)) by (apply Rmult_lt_0_compat; assumption). rewrite Eq in *. split; split; intro H; [apply U1 in H | apply U2 | apply U3 in H | apply U4]; nra. }
      assert (One : forall (z : F) v s, (s = 1 \/ s = -1) -> Rabs v <= 1 -> fin z /\ Rabs (val z - v) <= 7 * u * Rabs v + et -> q = s * v -> sgn_of (s * val z) q /\ Rabs (s * val z) < 2).
      { intros z v s Hs Bv [Fz Ez] Eqv. destruct (near_sign z v P Bv Fz Ez) as [S1 S2]; [destruct Cq as [Cq | Cq]; [left | right]; rewrite Eqv in Cq; destruct Hs as [-> | ->]; [lra | lra | rewrite Rmult_1_l in Cq; exact Cq | replace (-1 * v) with (- v) in Cq by ring; rewrite Rabs_Ropp in Cq; exact Cq] |].
        rewrite Eqv. destruct Hs as [-> | ->]; [rewrite !Rmult_1_l; split; assumption |]. replace (-1 * val z) with (- val z) by ring. replace (-1 * v) with (- v) by ring. rewrite Rabs_Ropp. split; [| exact S2]. destruct S1 as [[U1 U2] [U3 U4]]. split; split; intro H; [assert (0 < val z) by lra; specialize (U3 H0); lra | assert (0 < v) by lra; specialize (U4 H0); lra | assert (val z < 0) by lra; specialize (U1 H0); lra | assert (v < 0) by lra; specialize (U2 H0); lra]. }
      assert (Sgn : forall a, Rabs a = 1 -> a = 1 \/ a = -1) by (intros a Ha; unfold Rabs in Ha; destruct (Rcase_abs a); lra).
      destruct (nrm_comp d P Gd) as (D0 & D1 & D2). destruct (abs_comp_norm (s_unit (v3 d))) as (B0 & B1 & B2). assert (UN : norm (s_unit (v3 d)) = 1) by (apply (unit_norm _ Nd)). rewrite UN in B0, B1, B2.
      assert (W : vdot (s_unit (v3 n)) (v3 (nrm d)) = vx (s_unit (v3 n)) * val (c0 (nrm d)) + vy (s_unit (v3 n)) * val (c1 (nrm d)) + vz (s_unit (v3 n)) * val (c2 (nrm d))) by (destruct (nrm d) as [[a b c]]; reflexivity).
      rewrite W. unfold q, vdot in *. destruct (unit_axial_comp _ An) as [(A1 & A2 & A3) | [(A1 & A2 & A3) | (A1 & A2 & A3)]]; rewrite A2, A3 in *; rewrite !Rmult_0_l, ?Rplus_0_l, ?Rplus_0_r in *.
      - destruct (One _ _ _ (Sgn _ A1) B0 D0 eq_refl) as [O1 O2]. split; [apply Sq, O1 | exact O2].
      - destruct (One _ _ _ (Sgn _ A1) B1 D1 eq_refl) as [O1 O2]. split; [apply Sq, O1 | exact O2].
      - destruct (One _ _ _ (Sgn _ A1) B2 D2 eq_refl) as [O1 O2]. split; [apply Sq, O1 | exact O2]. }
    destruct K as [[Sn Sp] Qb]. destruct (fv_lit_0 prec emax) as [F0 V0]. change (@f_lit prec emax Hp Hm 0 1) with (@n0 F : bf) in F0, V0.
    destruct (gap_axis n o p P Gn An Mo Mp) as (G1 & _ & G3 & G4). destruct (dot_axis_fin n o Gn An (proj1 Mo)) as [O1 O2]. destruct (dot_axis_fin n p Gn An (proj1 Mp)) as [P1 P2]. rewrite (vdotn_comm o), (vdotn_comm p).
    assert (Un : forall v, vdot (s_unit (v3 n)) v = / norm (v3 n) * vdot (v3 n) v) by (intro v; apply vdot_scale_l). rewrite Un in G3, G4.
    split; [| split].
    - intro D. assert (Sn' := proj2 Sn D). rewrite (neqb_val_false prec emax lm _ _ Q1 F0) by (rewrite V0; lra). rewrite (ngt_val_false prec emax lm _ _ Q1 F0) by (rewrite V0; lra).
      pose proof (ray_meets_plane (v3 p) (v3 d) (v3 o) (v3 n) D) as Mt. cbn [ndiv Ieee]. split; intro M.
      + rewrite (proj1 (div_sign prec emax lm _ _ G1 Q1 Sn' ltac:(lra))); [eexists; reflexivity |]. apply Mt in M. apply Rnot_lt_le. intro C. apply G4 in C. nra.
      + rewrite (div_sign1 _ _ G1 Q1 Sn' Qb); [reflexivity |]. apply G4. apply Rmult_lt_0_compat; [exact In' |]. apply Rnot_le_lt. intro C. apply M, Mt, C.
    - intro D. assert (Zq : val (vdotn (nrm n) (nrm d)) = 0). { destruct (Rtotal_order (val (vdotn (nrm n) (nrm d))) 0) as [H | [H | H]]; [apply Sn in H; lra | exact H | apply Sp in H; lra]. }
      rewrite (proj2 (neqb_val prec emax lm _ _ Q1 F0)) by (rewrite V0; exact Zq).
      assert (Eq : val (vdotn (nrm n) o) = val (vdotn (nrm n) p) <-> s_plane (v3 o) (v3 n) (v3 p)).
      { rewrite O2, P2, !Un. unfold s_plane. rewrite vdot_sub_r. split; intro H; [apply Rmult_eq_reg_l in H; lra | f_equal; lra]. }
      split; intro M.
      + rewrite (proj2 (neqb_val prec emax lm _ _ O1 P1)) by (apply Eq; exact M). reflexivity.
      + rewrite (neqb_val_false prec emax lm _ _ O1 P1) by (intro H; apply M, Eq, H). reflexivity.
    - intro D. apply Sp in D. rewrite (neqb_val_false prec emax lm _ _ Q1 F0) by (rewrite V0; lra). rewrite (proj2 (ngt_val prec emax lm _ _ Q1 F0)) by (rewrite V0; lra). reflexivity.
  Qed.
End Axis.
