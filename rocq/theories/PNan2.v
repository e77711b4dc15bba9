(** PNan2.v — rays whose direction over- or underflows when squared, in IEEE arithmetic (C93). *)
From Coq Require Import Reals List ZArith NArith Bool Lra Lia Psatz.
From Flocq Require Import Core BinarySingleNaN.
Import ListNotations.
From Verif Require Import Base Num Vec Mat Bound Shape Intersect Float Exact FloatFacts FloatRound Order SpecMat SpecGeom SpecBound SpecInter
  SpecRound SpecBuild SpecShape SpecNan ExactFacts PMat PBound PInter PShape PGeo1 PBuild PRound PRound2 PRound3 PIeee1 PIeee2 PIeee3 PIeee5 PIeee7 PNan.
Local Open Scope R_scope.

Section PNan2.
  Context (prec emax : Z) {Hp : Prec_gt_0 prec} {Hm : Prec_lt_emax prec emax} (lm : libm (binary_float prec emax)).
  Notation bf := (binary_float prec emax).
  Notation fmt := (SpecFloat.fexp prec emax).
  Notation rnd := (round radix2 fmt ZnearestE).
  Notation val := (@B2R prec emax).
  Notation fin x := (is_finite (x : bf) = true).
  Notation u := (uro prec).
  Notation et := (eta prec emax).
  Notation fv := (fv prec emax).
  Notation F := (@Ieee prec emax Hp Hm lm).
  Notation w3 v := (v3 (v : mat3x1 bf)).
  Notation zer := (@B754_zero prec emax).

  (** finite with positive sign, or plus infinity *)
  Definition pz (x : bf) : Prop := x = B754_infinity false \/ (fin x /\ Bsign x = false).
  Lemma sf_inf (x : bf) s : B2SF x = SpecFloat.S754_infinity s -> x = B754_infinity s.
  Proof. destruct x; cbn; intro H; try discriminate H. injection H as <-. reflexivity. Qed.
  Lemma sq_pz (x : bf) : fin x -> pz (Bmult mode_NE x x).
  Proof.
    intro Fx. pose proof (Bmult_correct prec emax Hp Hm mode_NE x x) as Q. destruct (Rlt_bool _ _).
    - destruct Q as [_ [Q1 Q2]]. rewrite Fx in Q1. right. split; [exact Q1 |]. rewrite Q2, xorb_nilpotent; [reflexivity |].
      destruct (Bmult mode_NE x x); try reflexivity; discriminate Q1.
    - left. rewrite xorb_nilpotent in Q. apply sf_inf, Q.
  Qed.
  Lemma sq_inf (x : bf) : fin x -> bpow radix2 emax <= val x * val x -> Bmult mode_NE x x = B754_infinity false.
  Proof.
    intros Fx H. pose proof (Bmult_correct prec emax Hp Hm mode_NE x x) as Q. rewrite Rlt_bool_false in Q.
    - rewrite xorb_nilpotent in Q. apply sf_inf, Q.
    - rewrite Rabs_pos_eq.
      + apply round_ge_generic; [apply (fexp_correct prec emax Hp) | apply valid_rnd_N | | exact H].
        apply generic_format_bpow. unfold SpecFloat.fexp, SpecFloat.emin. assert (0 < prec)%Z by exact Hp. assert (prec < emax)%Z by exact Hm. lia.
      + pose proof (bpow_gt_0 radix2 emax). rewrite <- (round_0 radix2 fmt ZnearestE). apply round_le; [apply (fexp_correct prec emax Hp) | apply valid_rnd_N | lra].
  Qed.
  Lemma sign_pos (x : bf) : fin x -> Bsign x = false -> 0 <= val x.
  Proof.
    destruct x as [s | s | | s m e H]; cbn; intros Fx Sx; try lra. subst s. apply F2R_ge_0. cbn. lia.
  Qed.
  Lemma plus_pz (x y : bf) : pz x -> pz y -> pz (Bplus mode_NE x y).
  Proof.
    intros [-> | [Fx Sx]] [-> | [Fy Sy]].
    - left. reflexivity.
    - left. destruct y; try discriminate Fy; reflexivity.
    - left. destruct x; try discriminate Fx; reflexivity.
    - pose proof (sign_pos x Fx Sx) as Px. pose proof (sign_pos y Fy Sy) as Py. pose proof (Bplus_correct prec emax Hp Hm mode_NE x y Fx Fy) as Q.
      destruct (Rlt_bool _ _).
      + destruct Q as [_ [Q1 Q2]]. right. split; [exact Q1 |]. rewrite Q2, Sx, Sy. destruct (Rcompare_spec (val x + val y) 0); try reflexivity. lra.
      + left. destruct Q as [Q _]. rewrite Sx in Q. apply sf_inf, Q.
  Qed.
  Lemma inf_plus_l (x : bf) : pz x -> Bplus mode_NE (B754_infinity false) x = B754_infinity false.
  Proof. intros [-> | [Fx _]]; [reflexivity | destruct x; try discriminate Fx; reflexivity]. Qed.
  Lemma inf_plus_r (x : bf) : pz x -> Bplus mode_NE x (B754_infinity false) = B754_infinity false.
  Proof. intros [-> | [Fx _]]; [reflexivity | destruct x; try discriminate Fx; reflexivity]. Qed.
  Lemma sum_inf (x y z : bf) : fin3 (M3x1 (A3 x y z)) -> square_overflows (M3x1 (A3 x y z)) ->
    Bplus mode_NE (Bplus mode_NE (Bmult mode_NE x x) (Bmult mode_NE y y)) (Bmult mode_NE z z) = B754_infinity false.
  Proof.
    intros [Fx [Fy Fz]] H. pose proof (sq_pz x Fx) as Px. pose proof (sq_pz y Fy) as Py. pose proof (sq_pz z Fz) as Pz.
    destruct H as [H | [H | H]].
    - rewrite (sq_inf x Fx H), (inf_plus_l _ Py). apply inf_plus_l, Pz.
    - rewrite (sq_inf y Fy H), (inf_plus_r _ Px). apply inf_plus_l, Pz.
    - rewrite (sq_inf z Fz H). apply inf_plus_r, plus_pz; assumption.
  Qed.
  Lemma huge_nrm (d : mat3x1 F) : fin3 (d : mat3x1 bf) -> square_overflows (d : mat3x1 bf) ->
    exists s t r, nrm d = @M3x1 F (@A3 F (zer s) (zer t) (zer r)).
  Proof.
    destruct d as [[x y z]]. intros Hf Ho. pose proof (sum_inf x y z Hf Ho) as E. unfold nrm, npowi2. cbn [nmul nadd nsqrt ndiv Ieee].
    match goal with |- context [Bsqrt mode_NE ?q] => replace q with (B754_infinity false : bf) by (symmetry; exact E) end.
    destruct Hf as [Fx [Fy Fz]]. cbn [Bsqrt].
    destruct x; try discriminate Fx; destruct y; try discriminate Fy; destruct z; try discriminate Fz; do 3 eexists; reflexivity.
  Qed.
  Lemma mul_zero_r (x : bf) s : fin x -> exists t, Bmult mode_NE x (zer s) = zer t.
  Proof. destruct x; intro H; try discriminate H; eexists; reflexivity. Qed.
  Lemma mul_zero_l (x : bf) s : fin x -> exists t, Bmult mode_NE (zer s) x = zer t.
  Proof. destruct x; intro H; try discriminate H; eexists; reflexivity. Qed.
  Lemma add_zero s t : exists r, Bplus mode_NE (zer s) (zer t) = zer r.
  Proof. destruct s, t; eexists; reflexivity. Qed.
  Lemma dot_zero (v : mat3x1 F) s t r : fin3 (v : mat3x1 bf) -> exists q, mat3x1_dot v (@M3x1 F (@A3 F (zer s) (zer t) (zer r))) = Some (zer q).
  Proof.
    destruct v as [[x y z]]. intros [Fx [Fy Fz]]. unfold mat3x1_dot. cbn [nadd nmul Ieee].
    destruct (mul_zero_r x s Fx) as [a ->], (mul_zero_r y t Fy) as [b ->], (mul_zero_r z r Fz) as [c ->].
    destruct (add_zero a b) as [e ->], (add_zero e c) as [f ->]. exists f. reflexivity.
  Qed.
  Lemma n0_fv : fv (@n0 F) 0. Proof. exact (fv_n0 prec emax lm). Qed.
  Lemma zero_neqb s : neqb (zer s : F) n0 = true.
  Proof.
    destruct n0_fv as [F0 V0]. apply (neqb_iff (ieee_ordered prec emax lm)). change (emb (ieee_ordered prec emax lm)) with (b2x prec emax).
    rewrite (n0_x prec emax lm). split; [reflexivity | discriminate].
  Qed.
  Lemma neqb_val (x y : F) : fin x -> fin y -> (neqb x y = true <-> val x = val y).
  Proof.
    intros Fx Fy. split; intro H.
    - destruct (Req_dec (val x) (val y)) as [E | E]; [exact E |]. rewrite (neqb_val_false prec emax lm x y Fx Fy E) in H. discriminate H.
    - apply (neqb_iff (ieee_ordered prec emax lm)). change (emb (ieee_ordered prec emax lm)) with (b2x prec emax).
      rewrite !(fin_x prec emax) by assumption. rewrite H. split; [reflexivity | discriminate].
  Qed.
  (** zero times anything finite, plus the origin, is the origin *)
  Lemma zero_along (o : mat3x1 F) (t : F) s s' s'' : fin3 (o : mat3x1 bf) -> fin t ->
    exists p, along (@M3x1 F (@A3 F (zer s) (zer s') (zer s''))) t o = Ok p /\ fin3 (p : mat3x1 bf) /\ w3 p = w3 o.
  Proof.
    destruct o as [[x y z]]. intros [Fx [Fy Fz]] Ft. unfold along, mat3x1_scale. cbn [unwrap bind mat3x1_plus nmul nadd Ieee].
    destruct (mul_zero_l t s Ft) as [a ->], (mul_zero_l t s' Ft) as [b ->], (mul_zero_l t s'' Ft) as [c ->].
    assert (A : forall w (x : bf), fin x -> fv (Bplus mode_NE (zer w) x) (val x)).
    { intros w x0 F0. destruct (proj1 (plus_round prec emax (zer w) x0 eq_refl F0)) as [W1 W2].
      - cbn [B2R]. rewrite Rplus_0_l, rnd_B2R. apply abs_B2R_lt_emax.
      - split; [exact W1 |]. rewrite W2. cbn [B2R]. rewrite Rplus_0_l, rnd_B2R. reflexivity. }
    destruct (A a x Fx) as [A1 A2], (A b y Fy) as [B1 B2], (A c z Fz) as [C1 C2].
    eexists. split; [reflexivity |]. split; [repeat split; assumption |]. unfold v3. rewrite A2, B2, C2. reflexivity.
  Qed.

  (** ---- plane ---- *)
  Section Plane.
    Variables (o d p n : mat3x1 F) (e f : F) (a b : shape F).
    Hypotheses (P : (9 < prec)%Z) (Mo : moderate (o : mat3x1 bf)) (Fd : fin3 (d : mat3x1 bf)) (Hd : square_overflows (d : mat3x1 bf))
      (Mp : moderate (p : mat3x1 bf)) (Gn : good_normal (n : mat3x1 bf)) (Ka : mk_ray o d e a) (Kb : mk_plane p n f b).
    Lemma huge_plane : exists k c, mat3x1_dot (nrm n) p = Some k /\ mat3x1_dot (nrm n) o = Some c /\ fin k /\ fin c /\
      shape_get_intersect a b = if neqb k c then Ok (true, Some o) else Ok (false, None).
    Proof.
      destruct (proj_ieee prec emax lm n p P Gn Mp) as [k [Ek [[Fk _] _]]], (proj_ieee prec emax lm n o P Gn Mo) as [c [Ec [[Fc _] _]]].
      exists k, c. repeat (split; [assumption |]). pose proof (ray_any_eq o d e a) as Qa. apply Qa in Ka. apply plane_any in Kb. subst a b.
      rewrite (hit_of (ieee_ordered prec emax lm)) by (apply (plane_overlap (ieee_ordered prec emax lm)); reflexivity).
      cbn [core shape_get_shape_data pl_offset pl_normal]. unfold ray_plane. rewrite vec_at_data, vec_at2. cbn [bind ray_dir ray_ori].
      rewrite (dot_comm3 prec emax lm p), (dot_comm3 prec emax lm o), Ek, Ec. cbn [unwrap bind].
      destruct (huge_nrm d Fd Hd) as [s [t [r ->]]].
      destruct (nrm_ieee prec emax lm n P Gn) as [Bn _]. apply bnd3_fin in Bn.
      destruct (dot_zero (nrm n) s t r Bn) as [q ->]. cbn [unwrap bind]. rewrite zero_neqb. destruct (neqb k c); reflexivity.
    Qed.
    Lemma huge_plane_cases : shape_get_intersect a b = Ok (true, Some o) \/ shape_get_intersect a b = Ok (false, None).
    Proof. destruct huge_plane as (k & c & _ & _ & _ & _ & ->). destruct (neqb k c); [left | right]; reflexivity. Qed.
    Lemma huge_plane_miss : 13 * u * (norm (w3 p) + norm (w3 o)) + 9 * et < Rabs (vdot (s_unit (v3 n)) (vsub (v3 o) (v3 p))) ->
      shape_get_intersect a b = Ok (false, None).
    Proof.
      intro H. destruct huge_plane as (k & c & Ek & Ec & Fk & Fc & ->). destruct (neqb k c) eqn:N; [| reflexivity]. exfalso.
      apply (neqb_val k c Fk Fc) in N. destruct n0_fv as [F0 V0].
      set (A := SPlane (MkPlane p (nrm n) whole_any (nabs F n0)) : shape F). set (B := SPoint (MkPoint o (AABB (v3x1 o) (v3x1 o)) (nabs F n0)) : shape F).
      assert (KA : mk_plane p n n0 A) by (apply plane_any; reflexivity). assert (KB : mk_point o n0 B) by (apply point_any; reflexivity).
      pose proof (plane_point_ieee prec emax lm p n o n0 n0 A B P Gn Mp Mo F0 KA KB) as [_ Q]. change (@B2R prec emax (@n0 F)) with (val (@n0 F)) in Q.
      rewrite V0, Rabs_R0 in Q. change (s_unit (v3 n)) with (unit (v3 n)) in H. specialize (Q ltac:(lra)).
      rewrite (hit_of (ieee_ordered prec emax lm)) in Q by (rewrite (overlap_sym (ieee_ordered prec emax lm)); apply (plane_overlap (ieee_ordered prec emax lm)); reflexivity).
      unfold A, B in Q. cbn [core shape_get_shape_data pt_ori] in Q. unfold plane_point in Q. rewrite vec_at1 in Q. cbn [bind pl_normal pl_offset pl_vic] in Q.
      rewrite Ek, Ec in Q. cbn [unwrap bind] in Q.
      assert (Z : fv (nsub F k c) 0).
      { destruct (proj1 (minus_round prec emax k c Fk Fc)) as [Z1 Z2].
        - rewrite N, Rminus_diag_eq, round_0, Rabs_R0 by (reflexivity || apply valid_rnd_N). apply bpow_gt_0.
        - split; [exact Z1 |]. change (val (Bminus mode_NE k c) = 0). rewrite Z2, N, Rminus_diag_eq, round_0 by (reflexivity || apply valid_rnd_N). reflexivity. }
      replace (Shape.within (nabs F n0) (nsub F k c) n0) with true in Q; [discriminate Q |]. symmetry.
      assert (AF : fv (nabs F (@n0 F)) 0). { cbn [nabs Ieee]. split; [rewrite is_finite_Babs; exact F0 | rewrite B2R_Babs, V0; apply Rabs_R0]. }
      destruct Z as [Z1 Z2], AF as [A1 A2]. unfold Shape.within. apply andb_true_iff.
      assert (S1 : fv (nadd F (nsub F k c) (nabs F n0)) 0).
      { destruct (proj1 (plus_round prec emax _ _ Z1 A1)) as [W1 W2].
        - rewrite Z2, A2, Rplus_0_r, round_0, Rabs_R0 by apply valid_rnd_N. apply bpow_gt_0.
        - split; [exact W1 |]. cbn [nadd Ieee]. rewrite W2, Z2, A2, Rplus_0_r, round_0 by apply valid_rnd_N. reflexivity. }
      assert (S2 : fv (nsub F (nsub F k c) (nabs F n0)) 0).
      { destruct (proj1 (minus_round prec emax _ _ Z1 A1)) as [W1 W2].
        - rewrite Z2, A2, Rminus_0_r, round_0, Rabs_R0 by apply valid_rnd_N. apply bpow_gt_0.
        - split; [exact W1 |]. change (val (Bminus mode_NE (nsub F k c) (nabs F n0)) = 0). rewrite W2, Z2, A2, Rminus_0_r, round_0 by apply valid_rnd_N. reflexivity. }
      destruct S1 as [S1 T1], S2 as [S2 T2].
      split; [apply (nge_iff (ieee_ordered prec emax lm)) | apply (nle_iff (ieee_ordered prec emax lm))];
        change (emb (ieee_ordered prec emax lm)) with (b2x prec emax); rewrite (n0_x prec emax lm).
      - rewrite (fin_x prec emax _ S1). rewrite T1. simpl. lra.
      - rewrite (fin_x prec emax _ S2). rewrite T2. simpl. lra.
    Qed.
  End Plane.

  (** ---- sphere ---- *)
  Section Sphere.
    Variables (o d c : mat3x1 F) (r e f : F) (a b : shape F).
    Hypotheses (P : (9 < prec)%Z) (Mo : moderate (o : mat3x1 bf)) (Fd : fin3 (d : mat3x1 bf)) (Hd : square_overflows (d : mat3x1 bf))
      (Mc : moderate (c : mat3x1 bf)) (Fr : fin r) (Lr : 0 <= val r <= bpow radix2 (emax / 2 - 3)) (Ka : mk_ray o d e a) (Kb : mk_sphere c r f b).
    Definition ax : mat3x1 F := M3x1 (A3 n1 n0 n0).
    Lemma ax_good : good_normal (ax : mat3x1 bf).
    Proof.
      destruct n0_fv as [F0 V0]. destruct (@fv_lit_1 prec emax Hp Hm) as [F1 V1]. change (@f_lit prec emax Hp Hm 1 1) with (@n1 F) in F1, V1.
      assert (HM : (prec < emax)%Z) by exact Hm. pose proof (half_k prec emax P) as [_ K].
      assert (B1 : 1 <= bpow radix2 (emax / 2 - 3)) by (change 1 with (bpow radix2 0); apply bpow_le; lia).
      repeat split; try assumption; cbn [v3x1 v3 ax vx vy vz]; unfold ax, vdot, v3; cbn [vx vy vz]; change (@B2R prec emax) with val; rewrite ?V0, ?V1, ?Rabs_R0, ?Rabs_R1; try lra.
      replace (1 * 1 + 0 * 0 + 0 * 0) with 1 by ring. change 1 with (bpow radix2 0) at 1. apply bpow_le. lia.
    Qed.
    Lemma huge_sphere : exists q, fin q /\ Rabs (val q - (dist (w3 o) (w3 c) * dist (w3 o) (w3 c) - val r * val r)) <=
        7 * u * (dist (w3 o) (w3 c) * dist (w3 o) (w3 c) + val r * val r) + 6 * et /\
      (shape_get_intersect a b = Ok (false, None) \/
       (val q <= 0 /\ exists p, shape_get_intersect a b = Ok (true, Some p) /\ fin3 (p : mat3x1 bf) /\ w3 p = w3 o)).
    Proof.
      assert (Br : bnd prec emax (emax / 2 - 3) r) by (split; [exact Fr | rewrite Rabs_pos_eq; lra]).
      destruct (rs_num prec emax lm o ax c r P Mo ax_good Mc Br) as (rel & b' & rr & Er & _ & Err & Fb' & Fq & _ & _ & _ & _ & Hq & _).
      assert (Frel : fin3 (rel : mat3x1 bf)).
      { pose proof (moderate_bnd3 prec emax lm o Mo) as Mo1. pose proof (moderate_bnd3 prec emax lm c Mc) as Mc1. pose proof (half_k prec emax P) as [Hk1 Hk2]. assert (HM : (prec < emax)%Z) by exact Hm. assert (HP : (0 < prec)%Z) by exact Hp.
        destruct o as [[o0 o1 o2]], c as [[c0 c1 c2]]. destruct Mo1 as (A0 & A1 & A2), Mc1 as (B0 & B1 & B2). injection Er as <-.
        destruct (minus_bnd prec emax (emax / 2 - 3) o0 c0 ltac:(lia) ltac:(lia) A0 B0) as [[F0 _] _]. destruct (minus_bnd prec emax (emax / 2 - 3) o1 c1 ltac:(lia) ltac:(lia) A1 B1) as [[F1 _] _].
        destruct (minus_bnd prec emax (emax / 2 - 3) o2 c2 ltac:(lia) ltac:(lia) A2 B2) as [[F2 _] _]. repeat split; assumption. }
      destruct (huge_nrm d Fd Hd) as [s [t [w Ed]]]. destruct (dot_zero rel s t w Frel) as [z Ez]. rewrite <- Ed in Ez.
      set (q := nsub F rr (nmul F r r)) in *. exists q. split; [exact Fq |].
      assert (DD : forall x y, vdot (vsub x y) (vsub x y) = dist x y * dist x y) by (intros; unfold dist; symmetry; apply norm_sq).
      split. { unfold rs_C in Hq. rewrite !DD in Hq. exact Hq. }
      pose proof (ray_sphere_eval prec emax lm o d c r e f rel (zer z) rr Er Ez Err) as [Q | [Q _]]; cbv zeta in Q; fold q in Q;
        apply ray_any_eq in Ka; apply sphere_any in Kb; subst a b; [| left; exact Q]. rewrite Q. clear Q.
      assert (Dl : fv (nsub F (nmul F (zer z) (zer z)) q) (- val q)).
      { destruct (proj1 (minus_round prec emax (Bmult mode_NE (zer z) (zer z)) q eq_refl Fq)) as [W1 W2].
        - cbn [Bmult B2R]. rewrite Rminus_0_l, round_NE_opp, rnd_B2R, Rabs_Ropp. apply abs_B2R_lt_emax.
        - split; [exact W1 |]. change (val (Bminus mode_NE (Bmult mode_NE (zer z) (zer z)) q) = - val q). rewrite W2. cbn [Bmult B2R]. rewrite Rminus_0_l, round_NE_opp, rnd_B2R. reflexivity. }
      destruct Dl as [Fdl Vdl]. set (dl := nsub F (nmul F (zer z) (zer z)) q) in *.
      assert (N1 : ngt (zer z : F) n0 = false).
      { apply not_true_is_false. intro G. apply (ngt_iff (ieee_ordered prec emax lm)) in G. change (emb (ieee_ordered prec emax lm)) with (b2x prec emax) in G.
        rewrite (n0_x prec emax lm) in G. simpl in G. lra. }
      rewrite N1. cbn [andb]. destruct (nlt dl n0) eqn:N2; [left; reflexivity | right].
      destruct n0_fv as [F0 V0]. assert (Q0 : val q <= 0).
      { destruct (Rlt_or_le 0 (val q)) as [C | C]; [| exact C]. exfalso. assert (T : nlt dl n0 = true) by (apply (nlt_val prec emax lm); [exact Fdl | exact F0 | rewrite V0, Vdl; lra]). congruence. }
      split; [exact Q0 |].
      destruct (sqrt_ok prec emax dl Fdl ltac:(lra)) as [Fs _]. change (fin (nsqrt F dl)) in Fs.
      assert (Ft : forall x : F, x = nsub F (nneg F (zer z)) (nsqrt F dl) \/ x = nadd F (nneg F (zer z)) (nsqrt F dl) -> fin x).
      { assert (G : forall y : bf, fin y -> fin (Bminus mode_NE (zer (negb z)) y) /\ fin (Bplus mode_NE (zer (negb z)) y)).
        { intros y Fy. split.
          - apply (proj1 (minus_round prec emax (zer (negb z)) y eq_refl Fy)). cbn [B2R]. rewrite Rminus_0_l, round_NE_opp, rnd_B2R, Rabs_Ropp. apply abs_B2R_lt_emax.
          - apply (proj1 (plus_round prec emax (zer (negb z)) y eq_refl Fy)). cbn [B2R]. rewrite Rplus_0_l, rnd_B2R. apply abs_B2R_lt_emax. }
        intros x [-> | ->]; apply (G (nsqrt F dl) Fs). }
      set (t1 := nsub F (nneg F (zer z)) (nsqrt F dl)) in *. set (t2 := nadd F (nneg F (zer z)) (nsqrt F dl)) in *.
      set (tt := if nlt t1 n0 then t2 else if nlt t2 n0 then t1 else if nlt t1 t2 then t1 else t2).
      assert (Ftt : fin tt) by (unfold tt; destruct (nlt t1 n0), (nlt t2 n0), (nlt t1 t2); apply Ft; auto).
      rewrite Ed. destruct (zero_along o tt s t w (proj1 Mo) Ftt) as [p [-> [Fp Vp]]]. exists p. split; [reflexivity | split; assumption].
    Qed.
    Lemma huge_sphere_cases : shape_get_intersect a b = Ok (false, None) \/
      exists p, shape_get_intersect a b = Ok (true, Some p) /\ fin3 (p : mat3x1 bf) /\ w3 p = w3 o.
    Proof. destruct huge_sphere as (q & _ & _ & [H | [_ H]]); [left | right]; exact H. Qed.
    Lemma huge_sphere_miss : let D := dist (w3 o) (w3 c) in 7 * u * (D * D + val r * val r) + 6 * et < D * D - val r * val r ->
      shape_get_intersect a b = Ok (false, None).
    Proof.
      intros D H. destruct huge_sphere as (q & _ & Hq & [H' | [Q _]]); [exact H' |]. exfalso. fold D in Hq. apply Rabs_le_inv in Hq. lra.
    Qed.
  End Sphere.

  (** ---- underflow ---- *)
  Lemma sq_zero (x : bf) : fin x -> val x * val x < bpow radix2 (2 - emax - prec) -> exists s, Bmult mode_NE x x = zer s.
  Proof.
    intros Fx H. destruct (proj1 (mult_round prec emax x x Fx Fx)) as [A B].
    - rewrite (rnd_tiny prec emax) by (rewrite Rabs_pos_eq by nra; exact H). rewrite Rabs_R0. apply bpow_gt_0.
    - rewrite (rnd_tiny prec emax) in B by (rewrite Rabs_pos_eq by nra; exact H).
      destruct (Bmult mode_NE x x) as [s | s | | s m ee Hb]; try discriminate A; [exists s; reflexivity |].
      exfalso. cbn in B. apply eq_0_F2R in B. destruct s; discriminate B.
  Qed.
  Lemma tiny_nrm (x y z : F) : fin3 (M3x1 (A3 x y z) : mat3x1 bf) -> square_underflows (M3x1 (A3 x y z) : mat3x1 bf) ->
    exists s, nrm (M3x1 (A3 x y z)) = @M3x1 F (@A3 F (Bdiv mode_NE x (zer s)) (Bdiv mode_NE y (zer s)) (Bdiv mode_NE z (zer s))).
  Proof.
    intros [Fx [Fy Fz]] [Hx [Hy Hz]]. destruct (sq_zero x Fx Hx) as [a Ea], (sq_zero y Fy Hy) as [b Eb], (sq_zero z Fz Hz) as [c Ec].
    unfold nrm, npowi2. cbn [nmul nadd nsqrt ndiv Ieee]. rewrite Ea, Eb, Ec. destruct (add_zero a b) as [g ->], (add_zero g c) as [h ->].
    exists h. reflexivity.
  Qed.
  (** entries of a stored direction: NaN for a zero entry, infinite otherwise *)
  Lemma tiny_entry (x : bf) s : fin x -> (val x = 0 -> nisnan (Bdiv mode_NE x (zer s) : F) = true) /\
    (val x <> 0 -> is_finite (Bdiv mode_NE x (zer s)) = false /\ nisnan (Bdiv mode_NE x (zer s) : F) = false).
  Proof.
    intro Fx. destruct x as [t | t | | t m ee Hb]; try discriminate Fx; split; intro H.
    - apply (ieee_nan prec emax lm). reflexivity.
    - exfalso. apply H. reflexivity.
    - exfalso. cbn in H. apply eq_0_F2R in H. destruct t; discriminate H.
    - split; [reflexivity |]. apply not_true_is_false. intro C. apply (ieee_nan prec emax lm) in C. discriminate C.
  Qed.
  Lemma tiny_unit (x y z : F) (w : mat3x1 F) : fin3 (M3x1 (A3 x y z) : mat3x1 bf) -> square_underflows (M3x1 (A3 x y z) : mat3x1 bf) ->
    unit_of (M3x1 (A3 x y z)) w -> (val x = 0 \/ val y = 0 \/ val z = 0 -> some_nan w) /\
    (val x <> 0 -> val y <> 0 -> val z <> 0 -> match w with M3x1 (A3 a b c) =>
       (is_finite (a : bf) = false /\ nisnan a = false) /\ (is_finite (b : bf) = false /\ nisnan b = false) /\ (is_finite (c : bf) = false /\ nisnan c = false) end).
  Proof.
    intros Hf Hu Hw. rewrite (unit_nrm _ _ Hw). destruct (tiny_nrm x y z Hf Hu) as [s ->]. destruct Hf as [Fx [Fy Fz]].
    destruct (tiny_entry x s Fx) as [X1 X2], (tiny_entry y s Fy) as [Y1 Y2], (tiny_entry z s Fz) as [Z1 Z2]. split.
    - intros [H | [H | H]]; [left; apply X1, H | right; left; apply Y1, H | right; right; apply Z1, H].
    - intros A B C. split; [apply X2, A | split; [apply Y2, B | apply Z2, C]].
  Qed.
End PNan2.
