(** PQuat2.v — panic conditions, layouts, translations, axis-angle round trip, powers, logarithms and interpolation of
    quaternions (C18, C19, C23-C32). *)
From Coq Require Import Reals List ZArith NArith Bool Lra Lia Psatz.
From Flocq Require Import Core BinarySingleNaN.
Import ListNotations.
From Verif Require Import Base Num Vec Mat Quat Float Exact SpecMat SpecReal SpecGeom SpecQuat ExactFacts FloatFacts Order
  PMat PMat2 PMat3 PMat4 PQuat.
Local Open Scope R_scope.

(** ---- any arithmetic ---- *)
Section Any.
  Context {Nm : Num}.
  Lemma inverse_panics (q : quat Nm) :
    (quat_inverse q = Panic PAssert <-> neqb (quat_length_squared (quat_conjugate q)) n0 = true) /\
    (quat_inverse q = Panic PAssert \/ exists r, quat_inverse q = Ok r).
  Proof.
    unfold quat_inverse, nne. destruct (neqb _ n0); cbn [negb assert bind].
    - split; [split; reflexivity | left; reflexivity].
    - split; [split; discriminate | right; eexists; reflexivity].
  Qed.
  (** the column version of the rotation matrix has the transposed entries, bit for bit *)
  Lemma rotation_layout (q : quat Nm) f : repr4 (quat_to_rotation_matrix q true) f ->
    repr4 (quat_to_rotation_matrix q false) (ltrans f).
  Proof.
    intro Hf. apply repr4_iff. apply repr4_iff in Hf. intros i j Hi Hj. unfold ltrans. rewrite <- Hf by assumption.
    destruct q. cases4 i Hi; cases4 j Hj; reflexivity.
  Qed.
  Lemma pow_panics (q : quat Nm) t :
    (quat_pow q t = Panic PAssert <->
      neqb (nsqrt Nm (nadd Nm (nadd Nm (nmul Nm (qx q) (qx q)) (nmul Nm (qy q) (qy q))) (nmul Nm (qz q) (qz q)))) n0 = true) /\
    (quat_pow q t = Panic PAssert \/ exists r, quat_pow q t = Ok r).
  Proof.
    unfold quat_pow, nne. destruct (neqb _ n0); cbn [negb assert bind].
    - split; [split; reflexivity | left; reflexivity].
    - split; [split; discriminate | right; eexists; reflexivity].
  Qed.
End Any.

(** ---- IEEE arithmetic ---- *)
Section IeeeQuat.
  Context (prec emax : Z) {Hp : Prec_gt_0 prec} {Hm : Prec_lt_emax prec emax} (lm : libm (binary_float prec emax)).
  Notation F := (@Ieee prec emax Hp Hm lm).
  Lemma sq_neg (x : F) : nmul F (nneg F x) (nneg F x) = nmul F x x.
  Proof.
    destruct x as [s | s | | s m e H0]; try (destruct s; reflexivity); [reflexivity |].
    cbn -[SF2B]. apply SF2B_eq. destruct s; reflexivity.
  Qed.
  Lemma conj_len2 (q : quat F) : quat_length_squared (quat_conjugate q) = quat_length_squared q.
  Proof. destruct q as [x y z w]. unfold quat_length_squared, quat_conjugate. cbn [qx qy qz qw]. rewrite !sq_neg. reflexivity. Qed.
  Lemma inverse_panics_ieee (q : quat F) : quat_inverse q = Panic PAssert <-> neqb (quat_length_squared q) n0 = true.
  Proof. rewrite <- conj_len2. apply inverse_panics. Qed.
  Lemma normalize_panics_ieee (q : quat F) :
    (quat_normalize q = Panic PExplicit <-> (neqb (quat_length q) n0 = true \/ nisnan (quat_length q) = true)) /\
    (quat_normalize q = Panic PExplicit \/ exists r, quat_normalize q = Ok r).
  Proof.
    unfold quat_normalize. set (l := quat_length q). pose (O := ieee_ordered prec emax lm).
    assert (Z : emb O n0 = Fin 0) by (apply fv_b2x, fv_lit_0).
    destruct (ngt l n0) eqn:Hg; [| destruct (nlt l n0) eqn:Hl]; cbn [orb].
    - split; [| right; eexists; reflexivity]. split; [discriminate |]. intros [H0 | H0].
      + apply (neqb_iff O) in H0. apply (ngt_iff O) in Hg. destruct H0 as [H0 _]. rewrite H0, Z in Hg. simpl in Hg. lra.
      + apply (nisnan_iff O) in H0. apply (ngt_iff O) in Hg. rewrite H0, Z in Hg. simpl in Hg. contradiction.
    - split; [| right; eexists; reflexivity]. split; [discriminate |]. intros [H0 | H0].
      + apply (neqb_iff O) in H0. apply (nlt_iff O) in Hl. destruct H0 as [H0 _]. rewrite H0, Z in Hl. simpl in Hl. lra.
      + apply (nisnan_iff O) in H0. apply (nlt_iff O) in Hl. rewrite H0, Z in Hl. simpl in Hl. contradiction.
    - split; [| left; reflexivity]. split; [| reflexivity]. intros _.
      destruct (nisnan l) eqn:Hn; [right; reflexivity |]. left. apply (neqb_iff O).
      assert (Nl : emb O l <> NaN) by (intro C; apply (nisnan_iff O) in C; congruence).
      assert (Nz : emb O n0 <> NaN) by (rewrite Z; discriminate).
      split; [| exact Nl]. apply xle_antisym; [apply (ngt_false O) | apply (nlt_false O)]; assumption.
  Qed.

  (** interpolation at or beyond the ends *)
  Lemma f_sub_0 : fv prec emax (nsub F n1 n0) 1.
  Proof.
    change (nsub F n1 n0) with (Bminus mode_NE (n1 : F) (n0 : F)). rewrite Bminus_plus.
    destruct (fv_lit_1 prec emax) as [O1 O2]. destruct (fv_lit_0 prec emax) as [Z1 Z2].
    pose proof (fv_plus_exact prec emax (n1 : F) (Bopp (n0 : F)) (n1 : F)) as Q. unfold n1, n0 in *. simpl in *.
    rewrite O2 in Q. apply Q; [exact O1 | rewrite is_finite_Bopp; exact Z1 | rewrite B2R_Bopp, Z2; ring].
  Qed.
  Lemma f_sub_1 : fv prec emax (nsub F n1 n1) 0.
  Proof.
    change (nsub F n1 n1) with (Bminus mode_NE (n1 : F) (n1 : F)). rewrite Bminus_plus.
    destruct (fv_lit_1 prec emax) as [O1 O2]. destruct (fv_lit_0 prec emax) as [Z1 Z2].
    pose proof (fv_plus_exact prec emax (n1 : F) (Bopp (n1 : F)) (n0 : F)) as Q. unfold n1, n0 in *. simpl in *.
    rewrite Z2 in Q. apply Q; [exact O1 | rewrite is_finite_Bopp; exact O1 | rewrite B2R_Bopp, O2; ring].
  Qed.
  Lemma mul_fv0 (x u : F) : is_finite x = true -> fv prec emax u 0 -> fv prec emax (nmul F x u) 0.
  Proof.
    intros Hx [U1 U2]. change (nmul F x u) with (Bmult mode_NE x u).
    pose proof (fv_mult_exact prec emax x u (B754_zero false)) as Q. simpl in Q. apply Q; [assumption | assumption |].
    rewrite U2. ring.
  Qed.
  Lemma mul_fv1 (x u : F) : is_finite x = true -> fv prec emax u 1 -> fv prec emax (nmul F x u) (B2R x).
  Proof.
    intros Hx [U1 U2]. change (nmul F x u) with (Bmult mode_NE x u).
    apply fv_mult_exact; [assumption | assumption |]. rewrite U2. ring.
  Qed.
  Definition qfinite (q : quat F) : Prop :=
    is_finite (qx q) = true /\ is_finite (qy q) = true /\ is_finite (qz q) = true /\ is_finite (qw q) = true.
  Definition qsame (p q : quat F) : Prop :=
    neqb (qx p : F) (qx q) = true /\ neqb (qy p : F) (qy q) = true /\ neqb (qz p : F) (qz q) = true /\ neqb (qw p : F) (qw q) = true.
  Lemma end_comp (x y u v : F) : is_finite x = true -> is_finite y = true -> fv prec emax u 1 -> fv prec emax v 0 ->
    neqb (nadd F (nmul F x u) (nmul F y v)) x = true.
  Proof. intros. apply fv_eq; [assumption |]. apply a0r; [apply mul_fv1 | apply mul_fv0]; assumption. Qed.
  Lemma end_comp' (x y u v : F) : is_finite x = true -> is_finite y = true -> fv prec emax u 0 -> fv prec emax v 1 ->
    neqb (nadd F (nmul F x u) (nmul F y v)) y = true.
  Proof. intros. apply fv_eq; [assumption |]. apply a0l; [apply mul_fv0 | apply mul_fv1]; assumption. Qed.
  (** the clamped parameter at and beyond the ends *)
  Definition fclamp (t : F) : F := let u := if ngt t n1 then n1 else t in if nlt u n0 then n0 else u.
  Lemma fclamp_low (t : F) : nle t n0 = true -> fv prec emax (fclamp t) 0.
  Proof.
    intro Ht. pose (O := ieee_ordered prec emax lm).
    assert (Z : emb O n0 = Fin 0) by (apply fv_b2x, fv_lit_0).
    assert (U : emb O n1 = Fin 1) by (apply fv_b2x, fv_lit_1).
    apply (nle_iff O) in Ht. rewrite Z in Ht. unfold fclamp. destruct (ngt t n1) eqn:Hg.
    - apply (ngt_iff O) in Hg. rewrite U in Hg. destruct (emb O t); simpl in *; try contradiction; lra.
    - destruct (nlt t n0) eqn:Hl; [apply fv_lit_0 |].
      apply (nlt_false O) in Hl; [| destruct (emb O t); simpl in Ht; try contradiction; discriminate | rewrite Z; discriminate].
      apply fv_b2x. change (b2x prec emax t) with (emb O t). rewrite Z in Hl.
      destruct (emb O t); simpl in *; try contradiction. f_equal. lra.
  Qed.
  Lemma fclamp_high (t : F) : nge t n1 = true -> fv prec emax (fclamp t) 1.
  Proof.
    intro Ht. pose (O := ieee_ordered prec emax lm).
    assert (Z : emb O n0 = Fin 0) by (apply fv_b2x, fv_lit_0).
    assert (U : emb O n1 = Fin 1) by (apply fv_b2x, fv_lit_1).
    apply (nge_iff O) in Ht. rewrite U in Ht. unfold fclamp. destruct (ngt t n1) eqn:Hg.
    - destruct (nlt n1 n0) eqn:Hl; [| apply fv_lit_1].
      apply (nlt_iff O) in Hl. rewrite U, Z in Hl. simpl in Hl. lra.
    - apply (ngt_false O) in Hg; [| destruct (emb O t); simpl in Ht; try contradiction; discriminate | rewrite U; discriminate].
      rewrite U in Hg. destruct (nlt t n0) eqn:Hl.
      + apply (nlt_iff O) in Hl. rewrite Z in Hl. destruct (emb O t); simpl in *; try contradiction; lra.
      + apply fv_b2x. change (b2x prec emax t) with (emb O t).
        destruct (emb O t); simpl in *; try contradiction. f_equal. lra.
  Qed.
  Lemma sub_fv0 (u : F) : fv prec emax u 0 -> fv prec emax (nsub F n1 u) 1.
  Proof.
    intros [U1 U2]. change (nsub F n1 u) with (Bminus mode_NE (n1 : F) u). rewrite Bminus_plus.
    destruct (fv_lit_1 prec emax) as [O1 O2].
    pose proof (fv_plus_exact prec emax (n1 : F) (Bopp u) (n1 : F)) as Q. unfold n1, n0 in *. simpl in *.
    rewrite O2 in Q. apply Q; [exact O1 | rewrite is_finite_Bopp; exact U1 | rewrite B2R_Bopp, U2; ring].
  Qed.
  Lemma sub_fv1 (u : F) : fv prec emax u 1 -> fv prec emax (nsub F n1 u) 0.
  Proof.
    intros [U1 U2]. change (nsub F n1 u) with (Bminus mode_NE (n1 : F) u). rewrite Bminus_plus.
    destruct (fv_lit_1 prec emax) as [O1 O2]. destruct (fv_lit_0 prec emax) as [Z1 Z2].
    pose proof (fv_plus_exact prec emax (n1 : F) (Bopp u) (n0 : F)) as Q. unfold n1, n0 in *. simpl in *.
    rewrite Z2 in Q. apply Q; [exact O1 | rewrite is_finite_Bopp; exact U1 | rewrite B2R_Bopp, O2, U2; ring].
  Qed.
  Lemma lerp_ends (a b : quat F) t : qfinite a -> qfinite b ->
    (nle t n0 = true -> qsame (quat_interpolate_linear a b t) a) /\
    (nge t n1 = true -> qsame (quat_interpolate_linear a b t) b).
  Proof.
    intros [A1 [A2 [A3 A4]]] [B1 [B2 [B3 B4]]]. split; intro Ht.
    - pose proof (fclamp_low t Ht) as Hc. pose proof (sub_fv0 _ Hc) as Hd.
      unfold qsame, quat_interpolate_linear. fold (fclamp t). cbn [qx qy qz qw].
      repeat split; apply end_comp; assumption.
    - pose proof (fclamp_high t Ht) as Hc. pose proof (sub_fv1 _ Hc) as Hd.
      unfold qsame, quat_interpolate_linear. fold (fclamp t). cbn [qx qy qz qw].
      repeat split; apply end_comp'; assumption.
  Qed.
End IeeeQuat.

(** ---- exact arithmetic ---- *)
(** polar form *)
Definition hpolar (l : R) (n : V3) (b : R) : H4 := H (vscale (l * sin b) n) (l * cos b).
Lemma hpolar_mul l m n a b : vdot n n = 1 -> hmul (hpolar l n a) (hpolar m n b) = hpolar (l * m) n (a + b).
Proof.
  intro Hn. unfold hpolar. rewrite sin_plus, cos_plus. generalize (sin a) (cos a) (sin b) (cos b). intros sa ca sb cb.
  apply H4_eq.
  - hring.
  - unfold hmul. cbn [hv hs].
    replace (vdot (vscale (l * sa) n) (vscale (m * sb) n)) with (l * m * sa * sb * vdot n n) by (clear; hring).
    rewrite Hn. ring.
Qed.
Lemma hpolar_len l n b : vdot n n = 1 -> 0 <= l -> hlen (hpolar l n b) = l.
Proof.
  intros Hn Hl. unfold hlen, hpolar, hdot. cbn [hv hs].
  replace (vdot (vscale (l * sin b) n) (vscale (l * sin b) n)) with (l * l * (sin b * sin b) * vdot n n) by (clear; hring).
  rewrite Hn. replace (_ + _) with (l * l * (sin b * sin b + cos b * cos b)) by ring.
  rewrite sc1, Rmult_1_r. apply sqrt_square, Hl.
Qed.
Definition hangle (q : H4) : R := acos (hs q / hlen q).
Lemma hlen_split q : hlen q * hlen q = norm (hv q) * norm (hv q) + hs q * hs q.
Proof. rewrite hlen_sq, norm_sq. reflexivity. Qed.
Lemma hs_lt q : hv q <> vzero -> Rabs (hs q) < hlen q.
Proof.
  intro Hv. pose proof (norm_nz _ Hv) as Hn. pose proof (hlen_split q) as Hs. pose proof (hlen_pos q) as Hl.
  apply Rsqr_incrst_0; [| apply Rabs_pos | exact Hl]. rewrite <- Rsqr_abs. unfold Rsqr. nra.
Qed.
Lemma hratio q : hv q <> vzero -> -1 < hs q / hlen q < 1.
Proof.
  intro Hv. pose proof (hs_lt q Hv) as Ha. apply Rabs_def2 in Ha. destruct Ha as [Ha Hb].
  assert (Hl : 0 < hlen q) by lra.
  split; [apply Rmult_lt_reg_r with (hlen q) | apply Rmult_lt_reg_r with (hlen q)]; try lra;
    unfold Rdiv; rewrite Rmult_assoc, Rinv_l by lra; lra.
Qed.
Lemma hpolar_form q : hv q <> vzero -> hpolar (hlen q) (haxis_of q) (hangle q) = q.
Proof.
  intro Hv. pose proof (hratio q Hv) as Hr. pose proof (norm_nz _ Hv) as Hn. pose proof (hs_lt q Hv) as Ha.
  assert (Hl : 0 < hlen q) by (pose proof (Rabs_pos (hs q)); lra).
  unfold hpolar, hangle. rewrite sin_acos, cos_acos by lra.
  assert (Hs : hlen q * sqrt (1 - (hs q / hlen q)²) = norm (hv q)).
  { rewrite <- (sqrt_Rsqr (hlen q)) at 1 by lra. rewrite <- sqrt_mult.
    - rewrite <- (sqrt_Rsqr (norm (hv q))) by lra. f_equal. unfold Rsqr. rewrite <- (Rplus_0_r (norm _ * _)).
      transitivity (hlen q * hlen q - hs q * hs q); [field; lra |]. rewrite hlen_split. ring.
    - apply Rle_0_sqr.
    - assert (Hsq : (hs q / hlen q)² <= 1) by (rewrite <- Rsqr_1; apply neg_pos_Rsqr_le; lra). lra. }
  rewrite Hs. apply H4_eq; cbn [hv hs].
  - unfold haxis_of. destruct (hv q) as [x y z]. unfold vscale. simpl. apply V3_eq; simpl; field; lra.
  - field. lra.
Qed.

Lemma clamp01_bounds t : 0 <= clamp01 t <= 1.
Proof. unfold clamp01, Rmax, Rmin. destruct (Rle_dec 1 t), (Rle_dec 0 _); lra. Qed.
Lemma clamp01_low t : t <= 0 -> clamp01 t = 0.
Proof. intro Ht. unfold clamp01, Rmax, Rmin. destruct (Rle_dec 1 t), (Rle_dec 0 _); lra. Qed.
Lemma clamp01_high t : 1 <= t -> clamp01 t = 1.
Proof. intro Ht. unfold clamp01, Rmax, Rmin. destruct (Rle_dec 1 t), (Rle_dec 0 _); lra. Qed.
Lemma clamp01_id t : 0 <= t <= 1 -> clamp01 t = t.
Proof. intro Ht. unfold clamp01, Rmax, Rmin. destruct (Rle_dec 1 t), (Rle_dec 0 _); lra. Qed.

(** the angle between two unit vectors from the sine and cosine *)
Lemma atan2_acos c : -1 < c < 1 -> atan2R (sqrt (1 - c * c)) c = acos c.
Proof.
  intro Hc. change (c * c) with (c²). assert (Hs : 0 < sqrt (1 - c²)).
  { apply sqrt_lt_R0. assert (c² < 1) by (unfold Rsqr; nra). lra. }
  unfold atan2R. destruct (Rlt_dec 0 c) as [H0 | H0].
  - rewrite acos_atan by exact H0. reflexivity.
  - destruct (Rlt_dec c 0) as [H1 | H1].
    + destruct (Rlt_dec (sqrt (1 - c²)) 0); [lra |].
      assert (Ho : acos c = PI - acos (- c)) by (rewrite acos_opp; ring).
      rewrite Ho. rewrite acos_atan by lra. rewrite <- Rsqr_neg.
      replace (sqrt (1 - c²) / c) with (- (sqrt (1 - c²) / - c)) by (field; lra). rewrite atan_opp. ring.
    + assert (c = 0) by lra. subst c. destruct (Rlt_dec 0 _); [| contradiction]. rewrite acos_0. reflexivity.
Qed.

Section PQuat2.
  Context (eps : R) (zs : XR -> bool).
  Notation E := (Exact eps zs).
  Notation eq4 := (eq4 eps zs).

  Lemma ev_ext a b c p : a = vx p -> b = vy p -> c = vz p -> M3x1 (A3 (Fin a : E) (Fin b) (Fin c)) = ev eps zs p.
  Proof. intros; subst; reflexivity. Qed.
  Lemma normalize_panics q : quat_normalize (eq4 q) = Panic PExplicit <-> q = hzero.
  Proof.
    split; intro Hq.
    - destruct (Req_EM_T (hdot q q) 0) as [H0 | H0]; [apply hdot_zero, H0 |]. exfalso.
      destruct (q_normalize eps zs q) as [c [_ [Hn _]]]; [| congruence]. intros ->. apply H0. unfold hdot, vdot, hzero, vzero. simpl. ring.
    - subst q. unfold quat_normalize. rewrite q_len.
      assert (Hz : hlen hzero = 0).
      { unfold hlen. replace (hdot hzero hzero) with 0 by (unfold hdot, vdot, hzero, vzero; simpl; ring). apply sqrt_0. }
      rewrite Hz. change (n0 : E) with (Fin 0 : E). rewrite ngt_fin, nlt_fin. destruct (Rlt_dec 0 0); [lra | reflexivity].
  Qed.

  (** C24 *)
  Lemma trans_quat t : quat_init_from_translation (ev eps zs t) = eq4 (H (vscale (1 / 2) t) 0).
  Proof.
    unfold quat_init_from_translation, ev. change (n2 : E) with (Fin 2 : E). rewrite !ndiv_fin by lra.
    unfold PQuat.eq4. cbn [hv hs vscale vx vy vz]. apply (q_ext eps zs); try reflexivity; field.
  Qed.
  Lemma trans_row t p :
    mat4_mul_mat4x1 (quat_to_translation_matrix (quat_init_from_translation (ev eps zs t)) true) (ev4 eps zs p 1)
    = Ok (Some (ev4 eps zs (vscale (1 / 2) t) 1)).
  Proof.
    rewrite trans_quat.
    transitivity (Ok (Some (M4x1 (A4
      (Fin (0 * vx p + 0 * vy p + 0 * vz p + 1 / 2 * vx t * 1) : E) (Fin (0 * vx p + 0 * vy p + 0 * vz p + 1 / 2 * vy t * 1))
      (Fin (0 * vx p + 0 * vy p + 0 * vz p + 1 / 2 * vz t * 1)) (Fin (0 * vx p + 0 * vy p + 0 * vz p + 1 * 1))))));
      [reflexivity |].
    do 2 f_equal. apply ev4_ext; simpl; ring.
  Qed.
  Lemma trans_col t p :
    mat4_mul_mat4x1 (quat_to_translation_matrix (quat_init_from_translation (ev eps zs t)) false) (ev4 eps zs p 1)
    = Ok (Some (ev4 eps zs vzero (vdot t p / 2 + 1))).
  Proof.
    rewrite trans_quat.
    transitivity (Ok (Some (M4x1 (A4
      (Fin (0 * vx p + 0 * vy p + 0 * vz p + 0 * 1) : E) (Fin (0 * vx p + 0 * vy p + 0 * vz p + 0 * 1))
      (Fin (0 * vx p + 0 * vy p + 0 * vz p + 0 * 1))
      (Fin (1 / 2 * vx t * vx p + 1 / 2 * vy t * vy p + 1 / 2 * vz t * vz p + 1 * 1))))));
      [reflexivity |].
    do 2 f_equal. apply ev4_ext; unfold vdot; simpl; field.
  Qed.
  Lemma ev4_inj p w p' w' : ev4 eps zs p w = ev4 eps zs p' w' -> p = p' /\ w = w'.
  Proof. destruct p, p'. unfold ev4. simpl. intro Hh. inversion Hh. split; reflexivity. Qed.

  (** C25 *)
  Lemma ratio_1e6 : nlit E 1 1000000 = (Fin (1 / 1000000) : E). Proof. reflexivity. Qed.
  Lemma axis_angle_small q : hs q * hs q <= 1 -> sqrt (1 - hs q * hs q) < 1 / 1000000 ->
    quat_to_axis_angle (eq4 q) = Ok (ev eps zs (V 1 0 0), (Fin 0 : E)).
  Proof.
    intros H1 H2. unfold quat_to_axis_angle.
    change (nsub E n1 (nmul E (qw (eq4 q)) (qw (eq4 q)))) with (Fin (1 - hs q * hs q) : E).
    rewrite nsqrt_fin by lra. rewrite ratio_1e6, nlt_fin. destruct (Rlt_dec _ _); [reflexivity | contradiction].
  Qed.
  Lemma axis_angle_big q : hunit q -> 1 / 1000000 <= sqrt (1 - hs q * hs q) ->
    quat_to_axis_angle (eq4 q) = Ok (ev eps zs (vscale (/ norm (hv q)) (hv q)), (Fin (2 * acos (hs q)) : E)).
  Proof.
    intros Hu Hk. unfold quat_to_axis_angle.
    assert (Hd : 1 - hs q * hs q = vdot (hv q) (hv q)) by (unfold hunit, hdot in Hu; lra).
    change (nsub E n1 (nmul E (qw (eq4 q)) (qw (eq4 q)))) with (Fin (1 - hs q * hs q) : E).
    rewrite nsqrt_fin by (rewrite Hd; apply vdot_pos). rewrite ratio_1e6, nlt_fin. destruct (Rlt_dec _ _); [lra |].
    rewrite Hd in *. fold (norm (hv q)) in *. set (k := norm (hv q)) in *.
    change (qx (eq4 q)) with (Fin (vx (hv q)) : E). change (qy (eq4 q)) with (Fin (vy (hv q)) : E).
    change (qz (eq4 q)) with (Fin (vz (hv q)) : E). rewrite !ndiv_fin by lra.
    assert (K2 : k * k = vdot (hv q) (hv q)) by apply norm_sq.
    assert (L : nsqrt E (nadd E (nadd E (nmul E (Fin (vx (hv q) / k) : E) (Fin (vx (hv q) / k)))
                 (nmul E (Fin (vy (hv q) / k) : E) (Fin (vy (hv q) / k)))) (nmul E (Fin (vz (hv q) / k) : E) (Fin (vz (hv q) / k))))
                = (Fin 1 : E)).
    { change (nadd E _ _) with (Fin (vx (hv q) / k * (vx (hv q) / k) + vy (hv q) / k * (vy (hv q) / k) + vz (hv q) / k * (vz (hv q) / k)) : E).
      replace (_ + _) with 1 by (unfold vdot in K2; symmetry; transitivity ((k * k) / (k * k)); [rewrite K2 at 1; field; lra | field; lra]).
      rewrite nsqrt_fin by lra. rewrite sqrt_1. reflexivity. }
    rewrite L. change (n0 : E) with (Fin 0 : E). rewrite nne_fin. destruct (Req_EM_T 1 0); [lra |]. cbn [assert bind].
    rewrite !ndiv_fin by lra.
    change (qw (eq4 q)) with (Fin (hs q) : E).
    assert (A : nacos E (Fin (hs q) : E) = Fin (acos (hs q))).
    { simpl. destruct (Rle_dec (Rabs (hs q)) 1) as [_ | C]; [reflexivity |]. exfalso. apply C.
      apply Rabs_le. pose proof (vdot_pos (hv q)). split; nra. }
    rewrite A. change (n2 : E) with (Fin 2 : E).
    rewrite (ev_ext _ _ _ (vscale (/ k) (hv q))); [reflexivity | | |]; simpl; field; lra.
  Qed.
  Lemma axis_angle_roundtrip a t : a <> vzero -> 0 <= t < 2 * PI ->
    quat_to_axis_angle (eq4 (haxis (vscale (/ norm a) a) t)) =
      if Rlt_dec (sin (t / 2)) (1 / 1000000) then Ok (ev eps zs (V 1 0 0), (Fin 0 : E))
      else Ok (ev eps zs (vscale (/ norm a) a), (Fin t : E)).
  Proof.
    intros Ha Ht. set (k := vscale (/ norm a) a). pose proof (unit_axis a Ha) as Hk. fold k in Hk.
    assert (Hs : 0 <= sin (t / 2)) by (apply sin_ge_0; lra).
    pose proof (sc1 (t / 2)) as Hsc.
    assert (Hr : sqrt (1 - hs (haxis k t) * hs (haxis k t)) = sin (t / 2)).
    { cbn [haxis hs]. replace (1 - cos (t / 2) * cos (t / 2)) with (Rsqr (sin (t / 2))) by (unfold Rsqr; lra). apply sqrt_Rsqr, Hs. }
    destruct (Rlt_dec (sin (t / 2)) (1 / 1000000)) as [Hl | Hl].
    - apply axis_angle_small; [cbn [haxis hs]; nra | rewrite Hr; exact Hl].
    - rewrite axis_angle_big; [| apply haxis_unit, Hk | rewrite Hr; lra]. cbn [haxis hs hv].
      rewrite acos_cos by lra. replace (2 * (t / 2)) with t by field.
      assert (N1 : norm k = 1) by (unfold norm; rewrite Hk; apply sqrt_1).
      rewrite norm_vscale, N1, Rabs_pos_eq by exact Hs. do 3 f_equal.
      destruct k as [x y z]. unfold vscale. simpl. apply V3_eq; simpl; field; lra.
  Qed.

  (** C26 *)
  Lemma vec_len q : nsqrt E (nadd E (nadd E (nmul E (qx (eq4 q)) (qx (eq4 q))) (nmul E (qy (eq4 q)) (qy (eq4 q)))) (nmul E (qz (eq4 q)) (qz (eq4 q))))
    = (Fin (norm (hv q)) : E).
  Proof.
    change (nadd E _ _) with (Fin (vdot (hv q) (hv q)) : E). apply nsqrt_fin, vdot_pos.
  Qed.
  Lemma pow_polar q t : hv q <> vzero ->
    quat_pow (eq4 q) (Fin t : E) = Ok (eq4 (hpolar (Rpower (hlen q) t) (haxis_of q) (t * hangle q))).
  Proof.
    intro Hv. pose proof (norm_nz _ Hv) as Hn. pose proof (hs_lt q Hv) as Ha. pose proof (hratio q Hv) as Hr.
    assert (Hl : 0 < hlen q) by (pose proof (Rabs_pos (hs q)); lra).
    unfold quat_pow. rewrite vec_len. change (n0 : E) with (Fin 0 : E). rewrite nne_fin.
    destruct (Req_EM_T (norm (hv q)) 0); [lra |]. cbn [assert bind]. rewrite q_len.
    change (qx (eq4 q)) with (Fin (vx (hv q)) : E). change (qy (eq4 q)) with (Fin (vy (hv q)) : E).
    change (qz (eq4 q)) with (Fin (vz (hv q)) : E). change (qw (eq4 q)) with (Fin (hs q) : E).
    rewrite !ndiv_fin by lra.
    assert (A : nacos E (Fin (hs q / hlen q) : E) = Fin (hangle q)).
    { simpl. destruct (Rle_dec (Rabs (hs q / hlen q)) 1) as [_ | C]; [reflexivity |]. exfalso. apply C, Rabs_le. lra. }
    rewrite A.
    assert (P : npowf E (Fin (hlen q) : E) (Fin t) = Fin (Rpower (hlen q) t)).
    { simpl. destruct (Rlt_dec 0 (hlen q)); [reflexivity | contradiction]. }
    rewrite P. f_equal. unfold PQuat.eq4, hpolar, haxis_of. cbn [hv hs vscale vx vy vz].
    simpl. apply (q_ext eps zs); try reflexivity; unfold Rdiv; ring.
  Qed.
  Lemma pow_zero_vec q t : hv q = vzero -> quat_pow (eq4 q) (Fin t : E) = Panic PAssert.
  Proof.
    intro Hv. unfold quat_pow. rewrite vec_len, Hv, norm_vzero. change (n0 : E) with (Fin 0 : E). rewrite nne_fin.
    destruct (Req_EM_T 0 0); [reflexivity | contradiction].
  Qed.
  Lemma haxis_of_unit q : hv q <> vzero -> vdot (haxis_of q) (haxis_of q) = 1.
  Proof. apply unit_axis. Qed.
  Lemma pow_laws q : hv q <> vzero ->
    quat_pow (eq4 q) (Fin 0 : E) = Ok quat_init /\
    quat_pow (eq4 q) (Fin 1 : E) = Ok (eq4 q) /\
    (forall s t, exists a b, quat_pow (eq4 q) (Fin s : E) = Ok a /\ quat_pow (eq4 q) (Fin t : E) = Ok b /\
      quat_pow (eq4 q) (Fin (s + t) : E) = Ok (quat_mul a b)) /\
    (forall t, exists a, quat_pow (eq4 q) (Fin t : E) = Ok a /\ quat_length a = (Fin (Rpower (hlen q) t) : E)).
  Proof.
    intro Hv. pose proof (hs_lt q Hv) as Ha. assert (Hl : 0 < hlen q) by (pose proof (Rabs_pos (hs q)); lra).
    pose proof (haxis_of_unit q Hv) as Hn.
    split; [| split; [| split]].
    - rewrite pow_polar by exact Hv. rewrite Rpower_O by exact Hl. rewrite q_init. do 2 f_equal.
      unfold hpolar. rewrite Rmult_0_l, sin_0, cos_0. hring.
    - rewrite pow_polar by exact Hv. rewrite Rpower_1 by exact Hl. rewrite Rmult_1_l, hpolar_form by exact Hv. reflexivity.
    - intros s t. do 2 eexists. rewrite !pow_polar by exact Hv. repeat split. f_equal. rewrite q_mul, hpolar_mul by exact Hn.
      rewrite Rpower_plus. do 2 f_equal. ring.
    - intro t. eexists. rewrite pow_polar by exact Hv. split; [reflexivity |]. rewrite q_len, hpolar_len; [reflexivity | exact Hn |].
      left. apply exp_pos.
  Qed.

  (** C27 *)
  Lemma ln_value q : hv q <> vzero -> exists s, quat_ln (eq4 q) =
    Ok (Q (nmul E (Fin (vx (haxis_of q)) : E) s) (nmul E (Fin (vy (haxis_of q)) : E) s) (nmul E (Fin (vz (haxis_of q)) : E) s)
          (xln (Fin (hs q)) : E)) /\ s = nacos E (ndiv E (xln (Fin (hs q)) : E) (Fin (hlen q) : E)).
  Proof.
    intro Hv. pose proof (norm_nz _ Hv) as Hn. eexists. split; [| reflexivity].
    unfold quat_ln. rewrite vec_len. change (n0 : E) with (Fin 0 : E). rewrite nne_fin.
    destruct (Req_EM_T (norm (hv q)) 0); [lra |]. cbn [assert bind]. rewrite q_len.
    change (qx (eq4 q)) with (Fin (vx (hv q)) : E). change (qy (eq4 q)) with (Fin (vy (hv q)) : E).
    change (qz (eq4 q)) with (Fin (vz (hv q)) : E). change (qw (eq4 q)) with (Fin (hs q) : E).
    rewrite !ndiv_fin by lra. unfold haxis_of, vscale. cbn [vx vy vz]. unfold Rdiv.
    rewrite !(Rmult_comm (/ norm (hv q))). reflexivity.
  Qed.
  Lemma ln_wrong q : hv q <> vzero -> exists r, quat_ln (eq4 q) = Ok r /\ qw r <> Fin (ln (hlen q)).
  Proof.
    intro Hv. destruct (ln_value q Hv) as [s [Hq _]]. eexists. split; [exact Hq |]. cbn [qw xln].
    pose proof (hs_lt q Hv) as Ha. destruct (Rlt_dec 0 (hs q)) as [H0 | H0].
    - intro C. injection C as C. apply ln_inv in C; [| exact H0 | pose proof (Rabs_pos (hs q)); lra].
      pose proof (Rle_abs (hs q)). lra.
    - destruct (Rlt_dec (hs q) 0); discriminate.
  Qed.

  (** C28 *)
  Lemma clamp_eval t : (let u := if @ngt E (Fin t) n1 then (n1 : E) else Fin t in if nlt u n0 then n0 else u) = (Fin (clamp01 t) : E).
  Proof.
    change (n1 : E) with (Fin 1 : E). change (n0 : E) with (Fin 0 : E). cbv zeta. rewrite ngt_fin.
    destruct (Rlt_dec 1 t).
    - rewrite nlt_fin. destruct (Rlt_dec 1 0); [lra |]. rewrite clamp01_high by lra. reflexivity.
    - rewrite nlt_fin. destruct (Rlt_dec t 0); [rewrite clamp01_low by lra | rewrite clamp01_id by lra]; reflexivity.
  Qed.
  Lemma lerp_eval a b t : quat_interpolate_linear (eq4 a) (eq4 b) (Fin t : E)
    = eq4 (hadd (hscale (1 - clamp01 t) a) (hscale (clamp01 t) b)).
  Proof.
    unfold quat_interpolate_linear. pose proof (clamp_eval t) as C. cbv zeta in C. rewrite C.
    destruct a as [[] ?], b as [[] ?]. unfold PQuat.eq4, hadd, hscale, vadd, vscale. simpl.
    apply (q_ext eps zs); ring.
  Qed.

  (** C29, C30 *)
  Definition slerp_k0 (c t : R) : R := sin ((1 - t) * acos c) / sqrt (1 - c * c).
  Definition slerp_k1 (c t : R) : R := sin (t * acos c) / sqrt (1 - c * c).
  Lemma slerp_eval a b t : Rabs (hdot a b) <= 9999 / 10000 ->
    quat_interpolate_slerp (eq4 a) (eq4 b) (Fin t : E) =
      eq4 (hadd (hscale (slerp_k0 (hdot a b) (clamp01 t)) a)
                (hscale (slerp_k1 (hdot a b) (clamp01 t)) (if Rlt_dec (hdot a b) 0 then hneg b else b))).
  Proof.
    intro Hc. unfold quat_interpolate_slerp. pose proof (clamp_eval t) as C. cbv zeta in C. cbv zeta. rewrite C.
    set (u := clamp01 t).
    change (nadd E (nadd E (nadd E (nmul E (qw (eq4 a)) (qw (eq4 b))) (nmul E (qx (eq4 a)) (qx (eq4 b)))) (nmul E (qy (eq4 a)) (qy (eq4 b)))) (nmul E (qz (eq4 a)) (qz (eq4 b))))
      with (Fin (hs a * hs b + vx (hv a) * vx (hv b) + vy (hv a) * vy (hv b) + vz (hv a) * vz (hv b)) : E).
    replace (hs a * hs b + vx (hv a) * vx (hv b) + vy (hv a) * vy (hv b) + vz (hv a) * vz (hv b)) with (hdot a b) by (unfold hdot, vdot; ring).
    set (c := hdot a b) in *.
    apply Rabs_le_inv in Hc.
    change (n0 : E) with (Fin 0 : E). rewrite !nlt_fin.
    change (nneg E (Fin c)) with (Fin (- c) : E).
    change (nlit E 9999 10000) with (Fin (9999 / 10000) : E).
    assert (G : @ngt E (if (if Rlt_dec c 0 then true else false) then Fin (- c) else Fin c) (Fin (9999 / 10000)) = false).
    { destruct (Rlt_dec c 0); rewrite ngt_fin; destruct (Rlt_dec _ _); lra || reflexivity. }
    rewrite G. change (n1 : E) with (Fin 1 : E).
    change (nsub E (Fin 1) (nmul E (Fin c) (Fin c))) with (Fin (1 - c * c) : E).
    assert (P : 0 < 1 - c * c) by nra.
    rewrite nsqrt_fin by lra. change (natan2 E (Fin (sqrt (1 - c * c))) (Fin c)) with (Fin (atan2R (sqrt (1 - c * c)) c) : E).
    rewrite atan2_acos by lra. pose proof (sqrt_lt_R0 _ P) as S. rewrite ndiv_fin by lra.
    unfold slerp_k0, slerp_k1. generalize (acos c) (sqrt (1 - c * c)). intros om sq.
    clearbody u. destruct a as [[] ?], b as [[] ?]. unfold PQuat.eq4, hadd, hscale, hneg, vadd, vscale.
    destruct (Rlt_dec c 0); simpl; apply (q_ext eps zs); unfold Rdiv; ring.
  Qed.
  Lemma slerp_near a b t : 9999 / 10000 < Rabs (hdot a b) ->
    quat_interpolate_slerp (eq4 a) (eq4 b) (Fin t : E) =
      eq4 (hadd (hscale (1 - clamp01 t) a) (hscale (clamp01 t) (if Rlt_dec (hdot a b) 0 then hneg b else b))).
  Proof.
    intro Hc. unfold quat_interpolate_slerp. pose proof (clamp_eval t) as C. cbv zeta in C. cbv zeta. rewrite C.
    set (u := clamp01 t).
    change (nadd E (nadd E (nadd E (nmul E (qw (eq4 a)) (qw (eq4 b))) (nmul E (qx (eq4 a)) (qx (eq4 b)))) (nmul E (qy (eq4 a)) (qy (eq4 b)))) (nmul E (qz (eq4 a)) (qz (eq4 b))))
      with (Fin (hs a * hs b + vx (hv a) * vx (hv b) + vy (hv a) * vy (hv b) + vz (hv a) * vz (hv b)) : E).
    replace (hs a * hs b + vx (hv a) * vx (hv b) + vy (hv a) * vy (hv b) + vz (hv a) * vz (hv b)) with (hdot a b) by (unfold hdot, vdot; ring).
    set (c := hdot a b) in *.
    change (n0 : E) with (Fin 0 : E). rewrite !nlt_fin.
    change (nneg E (Fin c)) with (Fin (- c) : E).
    change (nlit E 9999 10000) with (Fin (9999 / 10000) : E).
    assert (G : @ngt E (if (if Rlt_dec c 0 then true else false) then Fin (- c) else Fin c) (Fin (9999 / 10000)) = true).
    { destruct (Rlt_dec c 0) as [Hn | Hn]; rewrite ngt_fin; destruct (Rlt_dec _ _) as [G | G]; try reflexivity; exfalso; apply G.
      - rewrite Rabs_left in Hc by exact Hn. exact Hc.
      - rewrite Rabs_pos_eq in Hc by lra. exact Hc. }
    rewrite G. change (n1 : E) with (Fin 1 : E).
    clearbody u. destruct a as [[] ?], b as [[] ?]. unfold PQuat.eq4, hadd, hscale, hneg, vadd, vscale.
    destruct (Rlt_dec c 0); simpl; apply (q_ext eps zs); ring.
  Qed.
  (** the weights: k0 + c k1 = cos(t omega), k0^2 + k1^2 + 2 c k0 k1 = 1 *)
  Lemma weights c t : -1 < c < 1 ->
    slerp_k0 c t + c * slerp_k1 c t = cos (t * acos c) /\
    slerp_k0 c t * slerp_k0 c t + slerp_k1 c t * slerp_k1 c t + 2 * c * slerp_k0 c t * slerp_k1 c t = 1.
  Proof.
    intro Hc. assert (P : 0 < 1 - c * c) by nra. pose proof (sqrt_lt_R0 _ P) as S.
    pose proof (sqrt_sqrt _ (Rlt_le _ _ P)) as S2.
    unfold slerp_k0, slerp_k1. replace ((1 - t) * acos c) with (acos c - t * acos c) by ring.
    rewrite sin_minus. pose proof (sin_acos c ltac:(lra)) as SA. pose proof (cos_acos c ltac:(lra)) as CA.
    unfold Rsqr in SA. rewrite SA, CA. set (sq := sqrt (1 - c * c)) in *.
    pose proof (sc1 (t * acos c)) as SC. generalize dependent (sin (t * acos c)). intros s SC. generalize dependent (cos (t * acos c)). intros k SC.
    split; [field; lra |].
    apply (Rmult_eq_reg_r (sq * sq)); [| nra].
    transitivity ((sq * k - c * s) * (sq * k - c * s) + s * s + 2 * c * (sq * k - c * s) * s); [field; lra |].
    transitivity (sq * sq * (k * k) + s * s * (1 - c * c)); [ring |]. rewrite <- S2.
    replace (k * k) with (1 - s * s) by lra. ring.
  Qed.
  Lemma comb_norm k0 k1 a b : hdot (hadd (hscale k0 a) (hscale k1 b)) (hadd (hscale k0 a) (hscale k1 b))
    = k0 * k0 * hdot a a + k1 * k1 * hdot b b + 2 * hdot a b * k0 * k1.
  Proof. hring. Qed.
  Lemma comb_dot k0 k1 a b : hdot a (hadd (hscale k0 a) (hscale k1 b)) = k0 * hdot a a + k1 * hdot a b.
  Proof. hring. Qed.
  Lemma hdot_hneg a b : hdot a (hneg b) = - hdot a b. Proof. hring. Qed.
  Lemma hunit_hneg b : hunit b -> hunit (hneg b).
  Proof. unfold hunit. intro Hb. rewrite <- Hb. hring. Qed.
  Lemma slerp_short a b t : hunit a -> hunit b -> 0 <= hdot a b <= 9999 / 10000 -> exists r,
    quat_interpolate_slerp (eq4 a) (eq4 b) (Fin t : E) = eq4 r /\ hunit r /\
    hdot a r = cos (clamp01 t * acos (hdot a b)).
  Proof.
    intros Ha Hb Hc. rewrite slerp_eval by (rewrite Rabs_pos_eq; lra). eexists. split; [reflexivity |].
    destruct (Rlt_dec (hdot a b) 0); [lra |]. destruct (weights (hdot a b) (clamp01 t) ltac:(lra)) as [W1 W2].
    unfold hunit. rewrite comb_norm, comb_dot. unfold hunit in Ha, Hb. rewrite Ha, Hb. split; lra.
  Qed.
  Lemma slerp_ends a b t : 0 <= hdot a b <= 9999 / 10000 ->
    (t <= 0 -> quat_interpolate_slerp (eq4 a) (eq4 b) (Fin t : E) = eq4 a) /\
    (1 <= t -> quat_interpolate_slerp (eq4 a) (eq4 b) (Fin t : E) = eq4 b).
  Proof.
    intro Hc. rewrite slerp_eval by (rewrite Rabs_pos_eq; lra).
    destruct (Rlt_dec (hdot a b) 0); [lra |]. set (c := hdot a b) in *. assert (P : 0 < 1 - c * c) by nra. pose proof (sqrt_lt_R0 _ P) as S.
    pose proof (sin_acos c ltac:(lra)) as SA. unfold Rsqr in SA.
    split; intro Ht; f_equal; unfold slerp_k0, slerp_k1.
    - rewrite clamp01_low by exact Ht. rewrite Rminus_0_r, Rmult_1_l, Rmult_0_l, sin_0, SA.
      replace (sqrt (1 - c * c) / sqrt (1 - c * c)) with 1 by (field; lra). unfold Rdiv. clearbody c. clear. hring.
    - rewrite clamp01_high by exact Ht. rewrite Rminus_eq_0, Rmult_1_l, Rmult_0_l, sin_0, SA.
      replace (sqrt (1 - c * c) / sqrt (1 - c * c)) with 1 by (field; lra). unfold Rdiv. clearbody c. clear. hring.
  Qed.
  Lemma slerp_obtuse a b t : hunit a -> hunit b -> -9999 / 10000 <= hdot a b < 0 -> exists r,
    quat_interpolate_slerp (eq4 a) (eq4 b) (Fin t : E) = eq4 r /\
    hdot r r = 1 - 4 * hdot a b * slerp_k0 (hdot a b) (clamp01 t) * slerp_k1 (hdot a b) (clamp01 t).
  Proof.
    intros Ha Hb Hc. rewrite slerp_eval by (rewrite Rabs_left; lra). eexists. split; [reflexivity |].
    destruct (Rlt_dec (hdot a b) 0); [| lra]. destruct (weights (hdot a b) (clamp01 t) ltac:(lra)) as [_ W2].
    rewrite comb_norm, (hdot_hneg a b). pose proof (hunit_hneg b Hb) as Hn. unfold hunit in Ha, Hn. rewrite Ha, Hn. lra.
  Qed.
  Lemma slerp_obtuse_wrong a b t : hunit a -> hunit b -> -9999 / 10000 <= hdot a b < 0 -> 0 < t < 1 -> exists r,
    quat_interpolate_slerp (eq4 a) (eq4 b) (Fin t : E) = eq4 r /\ 1 < hdot r r.
  Proof.
    intros Ha Hb Hc Ht. destruct (slerp_obtuse a b t Ha Hb Hc) as [r [Hr Hn]]. exists r. split; [exact Hr |]. rewrite Hn.
    rewrite clamp01_id by lra. set (c := hdot a b) in *. assert (P : 0 < 1 - c * c) by nra. pose proof (sqrt_lt_R0 _ P) as S.
    pose proof (acos_bound_lt c ltac:(lra)) as AB.
    assert (K0 : 0 < slerp_k0 c t) by (apply Rdiv_lt_0_compat; [apply sin_gt_0; nra | exact S]).
    assert (K1 : 0 < slerp_k1 c t) by (apply Rdiv_lt_0_compat; [apply sin_gt_0; nra | exact S]).
    assert (0 < slerp_k0 c t * slerp_k1 c t) by (apply Rmult_lt_0_compat; assumption). nra.
  Qed.
  Lemma slerp_near_norm a b t : hunit a -> hunit b -> 9999 / 10000 < Rabs (hdot a b) -> exists r,
    quat_interpolate_slerp (eq4 a) (eq4 b) (Fin t : E) = eq4 r /\ 1 - 1 / 20000 <= hdot r r <= 1.
  Proof.
    intros Ha Hb Hc. rewrite slerp_near by exact Hc. eexists. split; [reflexivity |].
    pose proof (clamp01_bounds t) as Hu. set (u := clamp01 t) in *. clearbody u.
    assert (Hb' : exists b' d, (if Rlt_dec (hdot a b) 0 then hneg b else b) = b' /\ hunit b' /\ hdot a b' = d /\ 9999 / 10000 < d).
    { destruct (Rlt_dec (hdot a b) 0).
      - exists (hneg b). eexists. split; [reflexivity |]. split; [apply hunit_hneg, Hb |]. split; [apply hdot_hneg |]. rewrite Rabs_left in Hc; assumption.
      - exists b. eexists. split; [reflexivity |]. split; [exact Hb |]. split; [reflexivity |]. rewrite Rabs_pos_eq in Hc; lra. }
    destruct Hb' as [b' [d [Eb [Ub [Hd Ld]]]]]. rewrite Eb. clear Eb.
    assert (Ud : d <= 1).
    { assert (Hsq : 0 <= hdot (hadd (hscale 1 a) (hscale (-1) b')) (hadd (hscale 1 a) (hscale (-1) b'))) by apply hdot_pos.
      rewrite comb_norm in Hsq. unfold hunit in Ha, Ub. rewrite Ha, Ub, Hd in Hsq. lra. }
    rewrite comb_norm. unfold hunit in Ha, Ub. rewrite Ha, Ub, Hd.
    assert (Huu : 0 <= u * (1 - u) <= 1 / 4) by (split; [apply Rmult_le_pos; lra | pose proof (Rle_0_sqr (u - 1 / 2)) as Sq; unfold Rsqr in Sq; lra]).
    replace ((1 - u) * (1 - u) * 1 + u * u * 1 + 2 * d * (1 - u) * u) with (1 - 2 * (u * (1 - u)) * (1 - d)) by ring.
    split; nra.
  Qed.

  (** C31 *)
  Lemma reflect_eval n p : vdot n n = 1 ->
    quat_reflection_in_plane (eq4 (H n 0)) (ev eps zs p) = ev eps zs (vsub p (vscale (2 * vdot n p) n)) /\
    quat_parallel_component_of_plane (eq4 (H n 0)) (ev eps zs p) = ev eps zs (vsub p (vscale (vdot n p) n)) /\
    quat_orthogonal_component_of_plane (eq4 (H n 0)) (ev eps zs p) = ev eps zs (vscale (vdot n p) n).
  Proof.
    intro Hn.
    assert (S : hmul (hmul (H n 0) (H p 0)) (H n 0) = H (vsub (vscale (vdot n n) p) (vscale (2 * vdot n p) n)) 0) by (clear; hring).
    rewrite Hn in S. change (nlit E 1 2) with (Fin (1 / 2) : E).
    unfold quat_reflection_in_plane, quat_parallel_component_of_plane, quat_orthogonal_component_of_plane.
    change (quat_of_vec (ev eps zs p)) with (eq4 (H p 0)). rewrite !q_mul, q_add, q_minus, S.
    change (nlit E 1 2) with (Fin (1 / 2) : E). rewrite !q_scale.
    split; [| split]; apply ev_ext; simpl; field.
  Qed.

  (** C32 *)
  Lemma auto_w_eval x y z : quat_init_from_vals_auto_w (Fin x : E) (Fin y) (Fin z) =
    eq4 (H (V x y z) (if Rlt_dec (1 - x * x - y * y - z * z) 0 then 1 - x * x - y * y - z * z
                      else - sqrt (1 - x * x - y * y - z * z))).
  Proof.
    unfold quat_init_from_vals_auto_w.
    change (nsub E (nsub E (nsub E n1 (nmul E (Fin x) (Fin x))) (nmul E (Fin y) (Fin y))) (nmul E (Fin z) (Fin z)))
      with (Fin (1 - x * x - y * y - z * z) : E).
    change (n0 : E) with (Fin 0 : E). cbv zeta. rewrite nlt_fin. destruct (Rlt_dec _ 0); [reflexivity |].
    rewrite nsqrt_fin by lra. change (nlit E (-1) 1) with (Fin (-1) : E). unfold PQuat.eq4. cbn [hv hs vx vy vz].
    simpl. apply (q_ext eps zs); try reflexivity. ring.
  Qed.
  Lemma auto_w_unit x y z : x * x + y * y + z * z <= 1 -> exists w, w <= 0 /\ hunit (H (V x y z) w) /\
    quat_init_from_vals_auto_w (Fin x : E) (Fin y) (Fin z) = eq4 (H (V x y z) w).
  Proof.
    intro Hx. rewrite auto_w_eval. destruct (Rlt_dec _ 0); [lra |]. eexists. split; [| split; [| reflexivity]].
    - pose proof (sqrt_pos (1 - x * x - y * y - z * z)). lra.
    - unfold hunit, hdot, vdot. simpl. pose proof (sqrt_sqrt (1 - x * x - y * y - z * z) ltac:(lra)). lra.
  Qed.
End PQuat2.
