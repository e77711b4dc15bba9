(** PRun.v — long runs of quaternion operations in IEEE arithmetic. *)
From Coq Require Import Reals List ZArith NArith Bool Lra Lia.
From Flocq Require Import Core BinarySingleNaN.
Import ListNotations.
From Verif Require Import Base Num Vec Mat Quat Float FloatFacts FloatRound SpecMat SpecRound SpecGeom SpecQuat SpecBuild SpecFq SpecRun ExactFacts PGeo1 PRound PRound2 PRound3 PQuat PIeee2 PIeee3 PIeee4 PIeee5 PIeee6 PPow.
Local Open Scope R_scope.

(** ---- over the reals ---- *)
Lemma hscale_len c q : 0 <= c -> hlen (hscale c q) = c * hlen q.
Proof. intro C. unfold hlen. replace (hdot (hscale c q) (hscale c q)) with ((c * c) * hdot q q) by (destruct q as [[? ? ?] ?]; unfold hdot, vdot; cbn; ring). rewrite sqrt_mult_alt by nra. rewrite sqrt_square by exact C. reflexivity. Qed.
Lemma hscale_abs c q : hlen (hscale c q) = Rabs c * hlen q.
Proof.
  unfold hlen. replace (hdot (hscale c q) (hscale c q)) with (Rsqr c * hdot q q) by (destruct q as [[? ? ?] ?]; unfold hdot, vdot, Rsqr; cbn; ring).
  rewrite sqrt_mult_alt by apply Rle_0_sqr. rewrite sqrt_Rsqr_abs. reflexivity.
Qed.
Lemma hdir_len q : 0 < hlen q -> hlen (hdir q) = 1.
Proof. intro L. unfold hdir. rewrite hscale_len by (left; apply Rinv_0_lt_compat; exact L). field. lra. Qed.
Lemma hdir_near q : 0 < hlen q -> hdist q (hdir q) = Rabs (hlen q - 1).
Proof.
  intro L. unfold hdist. replace (hsub q (hdir q)) with (hscale (hlen q - 1) (hdir q)).
  - rewrite hscale_abs, (hdir_len q L). ring.
  - unfold hdir, hsub, hscale, vsub, vscale. destruct q as [[a b c] d]. set (l := hlen _) in *. cbn [hv hs vx vy vz]. f_equal; [f_equal |]; field; lra.
Qed.
Lemma hdir_mul p q : 0 < hlen p -> 0 < hlen q -> hdir (hmul p q) = hmul (hdir p) (hdir q).
Proof.
  intros P Q. unfold hdir. rewrite hlen_mul. rewrite Rinv_mult. generalize (/ hlen p) (/ hlen q). intros s t. hring.
Qed.
(** directions of quaternions close to each other *)
Lemma hdir_dist p q : 0 < hlen p -> 0 < hlen q -> hdist (hdir p) (hdir q) <= 2 * hdist p q * / hlen q.
Proof.
  intros P Q. pose proof (hlen_near p q) as A. pose proof (hlen_near q p) as B. rewrite (hdist_sym q p) in B. assert (I := Rinv_0_lt_compat _ Q).
  set (m := hscale (/ hlen q) p). eapply Rle_trans; [apply (hdist_triangle _ m) |].
  assert (E1 : hdist m (hdir q) = / hlen q * hdist p q).
  { unfold hdist, m, hdir. replace (hsub (hscale (/ hlen q) p) (hscale (/ hlen q) q)) with (hscale (/ hlen q) (hsub p q)) by (generalize (/ hlen q); intro s; hring). apply hscale_len. lra. }
  assert (E2 : hdist m (hdir p) <= / hlen q * hdist p q).
  { assert (Lm : hlen m = / hlen q * hlen p) by (apply hscale_len; lra). assert (D : hdir m = hdir p). { unfold hdir at 1. rewrite Lm. unfold m, hdir. destruct p as [[a b c] d]. set (l := hlen (H _ _)) in *. unfold hscale, vscale. cbn [hv hs vx vy vz]. f_equal; [f_equal |]; field; lra. }
    rewrite <- D. rewrite hdir_near by (rewrite Lm; apply Rmult_lt_0_compat; assumption). rewrite Lm. replace (/ hlen q * hlen p - 1) with (/ hlen q * (hlen p - hlen q)) by (field; lra). rewrite Rabs_mult, (Rabs_pos_eq (/ hlen q)) by lra.
    apply Rmult_le_compat_l; [lra |]. apply Rabs_le. lra. }
  rewrite (hdist_sym (hdir p) m). lra.
Qed.
Lemma hdist_mul_l p q r : hdist (hmul p q) (hmul p r) = hlen p * hdist q r.
Proof. unfold hdist. rewrite <- hlen_mul. f_equal. hring. Qed.
Lemma hdist_mul_r p q r : hdist (hmul q p) (hmul r p) = hlen p * hdist q r.
Proof. unfold hdist. rewrite hmul_sub_l, hlen_mul. ring. Qed.
Lemma hdist_conj p q : hdist (hconj p) (hconj q) = hdist p q.
Proof. unfold hdist, hlen. f_equal. destruct p as [[? ? ?] ?], q as [[? ? ?] ?]. unfold hdot, vdot. cbn. ring. Qed.
Lemma hdist_neg p q : hdist (hneg p) (hneg q) = hdist p q.
Proof. unfold hdist, hlen. f_equal. destruct p as [[? ? ?] ?], q as [[? ? ?] ?]. unfold hdot, vdot. cbn. ring. Qed.
Lemma hlen_neg q : hlen (hneg q) = hlen q.
Proof. unfold hlen. f_equal. destruct q as [[? ? ?] ?]. unfold hdot, vdot. cbn. ring. Qed.
Lemma hdir_conj q : hdir (hconj q) = hconj (hdir q).
Proof. unfold hdir. rewrite hlen_conj. generalize (/ hlen q). intro s. hring. Qed.
Lemma hdir_scale c q : 0 < c -> 0 < hlen q -> hdir (hscale c q) = hdir q.
Proof. intros C L. unfold hdir. rewrite hscale_len by lra. destruct q as [[a b x] d]. set (l := hlen _) in *. unfold hscale, vscale. cbn [hv hs vx vy vz]. f_equal; [f_equal |]; field; lra. Qed.

(** rotations by quaternions close to each other *)
Lemma hrot_near p q v : dist (hrot p v) (hrot q v) <= (hlen p + hlen q) * hdist p q * norm v.
Proof.
  assert (E : H (vsub (hrot p v) (hrot q v)) 0 = hadd (hmul (hmul (hsub p q) (H v 0)) (hconj p)) (hmul (hmul q (H v 0)) (hconj (hsub p q)))) by (unfold hrot; hring).
  unfold dist. rewrite <- norm_hlen, E. eapply Rle_trans; [apply hlen_triangle |]. rewrite !hlen_mul, !hlen_conj, !norm_hlen. fold (hdist p q). right. ring.
Qed.

Section Run.
  Context (prec emax : Z) {Hp : Prec_gt_0 prec} {Hm : Prec_lt_emax prec emax} (lm : libm (binary_float prec emax)).
  Notation bf := (binary_float prec emax).
  Notation F := (@Ieee prec emax Hp Hm lm).
  Notation u := (uro prec).
  Notation et := (eta prec emax).
  Notation val := (@B2R prec emax).
  Notation qval q := (qval (q : quat bf)).
  Notation qfin q := (qfin (q : quat bf)).
  (** normalise *)
  Lemma norm_step (q : quat F) : (9 < prec)%Z -> qfin q -> / 2 <= hlen (qval q) <= 2 ->
    exists r, quat_normalize q = Ok r /\ qfin r /\ hdist (qval r) (hdir (qval q)) <= 9 * u /\ Rabs (hlen (qval r) - 1) <= 9 * u.
  Proof.
    intros P Fq [L1 L2]. pose proof (u_pos prec) as U0. pose proof (et_pos prec emax) as T0. pose proof (et_small prec emax P) as T. pose proof (qlen_fin prec emax lm q P Fq L2) as Fl. destruct q as [a b c d].
    assert (ES : hdot (qval (Q a b c d)) (qval (Q a b c d)) = val a * val a + val b * val b + val c * val c + val d * val d) by reflexivity.
    pose proof (hlen_sq (qval (Q a b c d))) as Sq. rewrite ES in Sq. assert (HE : (10 < emax)%Z) by (unfold Prec_lt_emax in Hm; lia).
    assert (Bs : bpow radix2 (6 - emax) <= val a * val a + val b * val b + val c * val c + val d * val d). { rewrite <- Sq. assert (Hb : bpow radix2 (6 - emax) <= bpow radix2 (-2)) by (apply bpow_le; lia). change (bpow radix2 (-2)) with (/ 4) in Hb. nra. }
    destruct (qnorm prec emax lm a b c d P Fl Bs) as (_ & x & y & z & w & E & (X1 & X2) & (Y1 & Y2) & (Z1 & Z2) & (W1 & W2) & N). exists (Q x y z w).
    assert (EL : sqrt (val a * val a + val b * val b + val c * val c + val d * val d) = hlen (qval (Q a b c d))) by (unfold hlen; rewrite ES; reflexivity). rewrite EL in *.
    split; [exact E |]. split; [repeat split; assumption |]. split.
    - set (l := hlen (qval (Q a b c d))) in *. assert (Lnz : l <> 0) by lra. set (D := hdir (qval (Q a b c d))).
      assert (LD : hlen D = 1) by (apply hdir_len; fold l; lra).
      set (G := H (V (8 * u * Rabs (val a / l)) (8 * u * Rabs (val b / l)) (8 * u * Rabs (val c / l))) (8 * u * Rabs (val d / l))).
      set (Et := H (V et et et) et). assert (LG : hlen G = 8 * u * 1).
      { rewrite <- LD. rewrite <- (hscale_len (8 * u)) by lra. unfold hlen. f_equal. 
        assert (Sa : forall t, (8 * u * Rabs (t / l)) * (8 * u * Rabs (t / l)) = (8 * u * (/ l * t)) * (8 * u * (/ l * t))). { intro t. replace (/ l * t) with (t / l) by (unfold Rdiv; ring). pose proof (Rsqr_abs (t / l)) as Q. unfold Rsqr in Q. replace (8 * u * (t / l) * (8 * u * (t / l))) with (64 * u * u * (t / l * (t / l))) by ring. rewrite Q. ring. }
        unfold hdot, vdot, G. cbn [hv hs vx vy vz]. rewrite !Sa. reflexivity. }
      assert (LE : hlen Et <= 2 * et) by (apply hlen_box; [lra | unfold Et; cbn [hv hs vx vy vz]; rewrite Rabs_pos_eq; lra ..]).
      eapply Rle_trans; [unfold hdist; apply (hlen_mono (hsub (qval (Q x y z w)) D) (hadd G Et)) |].
      + change (Rabs (val x - / l * val a) <= 8 * u * Rabs (val a / l) + et). replace (/ l * val a) with (val a / l) by (unfold Rdiv; ring). exact X2.
      + change (Rabs (val y - / l * val b) <= 8 * u * Rabs (val b / l) + et). replace (/ l * val b) with (val b / l) by (unfold Rdiv; ring). exact Y2.
      + change (Rabs (val z - / l * val c) <= 8 * u * Rabs (val c / l) + et). replace (/ l * val c) with (val c / l) by (unfold Rdiv; ring). exact Z2.
      + change (Rabs (val w - / l * val d) <= 8 * u * Rabs (val d / l) + et). replace (/ l * val d) with (val d / l) by (unfold Rdiv; ring). exact W2.
      + eapply Rle_trans; [apply hlen_triangle |]. lra.
    - replace (hlen (qval (Q x y z w))) with (sqrt (val x * val x + val y * val y + val z * val z + val w * val w)) by reflexivity. lra.
  Qed.
  (** multiply and normalise *)
  Notation near := (@near prec emax).
  Notation factor := (@factor prec emax).
  Lemma mul_step (p q : quat F) : (9 < prec)%Z -> qfin p -> qfin q -> 5 / 8 <= hlen (qval p) * hlen (qval q) <= 3 / 2 -> hlen (qval p) <= 2 -> hlen (qval q) <= 2 ->
    exists r, quat_normalize (quat_mul p q) = Ok r /\ near r /\ hdist (qval r) (hmul (hdir (qval p)) (hdir (qval q))) <= 28 * u.
  Proof.
    intros P Fp Fq [A1 A2] L1 L2. pose proof (u_pos prec) as U0. pose proof (et_pos prec emax) as T0. pose proof (et_small prec emax P) as T. pose proof (u_small prec P) as U. assert (HE : (10 < emax)%Z) by (unfold Prec_lt_emax in Hm; lia). assert (HP : (0 < prec)%Z) by exact Hp.
    destruct (qmul_ieee prec emax lm 1 1 p q P ltac:(lia) ltac:(lia) Fp Fq L1 L2) as [Fr Dr]. set (m := quat_mul p q) in *. set (L := hlen (qval p) * hlen (qval q)) in *.
    pose proof (hlen_near (qval m) (hmul (qval p) (qval q))) as N1. pose proof (hlen_near (hmul (qval p) (qval q)) (qval m)) as N2. rewrite (hdist_sym (hmul _ _)) in N2. rewrite hlen_mul in N1, N2. fold L in N1, N2.
    assert (Dr' : hdist (qval m) (hmul (qval p) (qval q)) <= 10 * u * L) by nra.
    assert (uL : u * L <= / 1024 * (3 / 2)) by (apply Rmult_le_compat; lra).
    destruct (norm_step m P Fr ltac:(lra)) as (r & E & Fr' & Dn & Ln). exists r. split; [exact E |]. split; [split; assumption |].
    assert (Pp : 0 < hlen (qval p)). { destruct (Rle_lt_or_eq_dec 0 _ (hlen_pos (qval p))) as [H | H]; [exact H |]. unfold L in A1. rewrite <- H in A1. lra. }
    assert (Pq : 0 < hlen (qval q)). { destruct (Rle_lt_or_eq_dec 0 _ (hlen_pos (qval q))) as [H | H]; [exact H |]. unfold L in A1. rewrite <- H in A1. lra. }
    rewrite <- hdir_mul by assumption. eapply Rle_trans; [apply (hdist_triangle _ (hdir (qval m))) |].
    assert (E1 : hdist (hdir (qval m)) (hdir (hmul (qval p) (qval q))) <= 19 * u).
    { eapply Rle_trans; [apply hdir_dist; [lra | rewrite hlen_mul; fold L; lra] |]. rewrite hlen_mul. fold L. assert (I : 0 < / L) by (apply Rinv_0_lt_compat; lra).
      apply Rmult_le_reg_r with L; [lra |]. rewrite Rmult_assoc, Rinv_l by lra. rewrite Rmult_1_r. nra. }
    lra.
  Qed.
  (** invert and normalise *)
  Lemma inv_step (q : quat F) : (9 < prec)%Z -> near q -> exists r, bind (quat_inverse q) quat_normalize = Ok r /\ near r /\ hdist (qval r) (hconj (hdir (qval q))) <= 28 * u.
  Proof.
    intros P [Fq L]. pose proof (u_pos prec) as U0. pose proof (et_pos prec emax) as T0. pose proof (et_small prec emax P) as T. pose proof (u_small prec P) as U. assert (HE : (10 < emax)%Z) by (unfold Prec_lt_emax in Hm; lia). apply Rabs_le_inv in L.
    set (l := hlen (qval q)) in *. assert (Lb : 98 / 100 <= l <= 102 / 100) by lra. assert (Sq := hlen_sq (qval q)). fold l in Sq.
    assert (B1 : bpow radix2 (6 - emax) <= hdot (qval q) (qval q)). { rewrite <- Sq. assert (Hb : bpow radix2 (6 - emax) <= bpow radix2 (-2)) by (apply bpow_le; lia). change (bpow radix2 (-2)) with (/ 4) in Hb. nra. }
    assert (B2 : l <= bpow radix2 (emax / 2 - 3)). { assert (Hb : bpow radix2 1 <= bpow radix2 (emax / 2 - 3)) by (apply bpow_le; assert (5 <= emax / 2)%Z by (apply Z.div_le_lower_bound; lia); lia). change (bpow radix2 1) with 2 in Hb. lra. }
    destruct (qinverse_ieee prec emax lm q P Fq B1 B2) as (r & E & Fr & Dr). fold l in Dr. rewrite E. cbn [bind].
    assert (IL : 0 < / l <= 103 / 100). { split; [apply Rinv_0_lt_compat; lra |]. apply Rmult_le_reg_r with l; [lra |]. rewrite Rinv_l by lra. lra. }
    set (T0' := hscale (/ hdot (qval q) (qval q)) (hconj (qval q))) in *. assert (LT : hlen T0' = / l). { unfold T0'. rewrite <- Sq, hscale_len by (left; apply Rinv_0_lt_compat; nra). rewrite hlen_conj. fold l. field. lra. }
    assert (DT : hdir T0' = hconj (hdir (qval q))). { unfold T0'. rewrite hdir_scale; [apply hdir_conj | rewrite <- Sq; apply Rinv_0_lt_compat; nra | rewrite hlen_conj; fold l; lra]. }
    assert (Dr' : hdist (qval r) T0' <= 9 * u * / l). { assert (et <= u * / l * (/ 200)). { assert (98 / 100 <= / l) by (apply Rmult_le_reg_r with l; [lra |]; rewrite Rinv_l by lra; nra). nra. } lra. }
    assert (ul : u * / l <= / 1024 * (103 / 100)) by (apply Rmult_le_compat; lra). assert (LI : 98 / 100 <= / l) by (apply Rmult_le_reg_r with l; [lra |]; rewrite Rinv_l by lra; nra).
    pose proof (hlen_near (qval r) T0') as N1. pose proof (hlen_near T0' (qval r)) as N2. rewrite (hdist_sym T0') in N2. rewrite LT in N1, N2.
    destruct (norm_step r P Fr ltac:(lra)) as (s & Es & Fs & Ds & Ls). exists s. split; [exact Es |]. split; [split; assumption |].
    rewrite <- DT. eapply Rle_trans; [apply (hdist_triangle _ (hdir (qval r))) |].
    assert (E1 : hdist (hdir (qval r)) (hdir T0') <= 18 * u). { eapply Rle_trans; [apply hdir_dist; [lra | rewrite LT; lra] |]. rewrite LT, Rinv_inv. apply Rle_trans with (2 * (9 * u * / l) * l); [apply Rmult_le_compat_r; [lra |]; lra |]. right. field. lra. }
    lra.
  Qed.
  (** one operation *)
  Lemma qneg_val (q : quat F) : qfin q -> qfin (quat_negate q) /\ qval (quat_negate q) = hneg (qval q).
  Proof.
    intros (F1 & F2 & F3 & F4). destruct q as [a b c d]. cbn [qx qy qz qw] in *. unfold quat_negate, SpecFq.qfin, SpecFq.qval. cbn [qx qy qz qw nneg Ieee]. rewrite !is_finite_Bopp, !B2R_Bopp. split; [repeat split; assumption |].
    unfold hneg, hscale, vscale. cbn [hv hs vx vy vz]. f_equal; [f_equal |]; ring.
  Qed.
  Lemma step_ok (q : quat F) (o : turn (quat F)) (U : H4) d : (9 < prec)%Z -> near q -> turn_all factor o -> hdist (qval q) U <= d ->
    exists r, turn_step q o = Ok r /\ near r /\ hdist (qval r) (htrack U (turn_map (fun p => qval p) o)) <= d + 37 * u.
  Proof.
    intros P Nq Fo D. pose proof (u_pos prec) as U0. pose proof (u_small prec P) as Us. destruct Nq as [Fq Lq]. assert (Lq' := Lq). apply Rabs_le_inv in Lq'. assert (Pq : 0 < hlen (qval q)) by lra.
    assert (Dq : hdist (hdir (qval q)) U <= d + 9 * u) by (eapply Rle_trans; [apply (hdist_triangle _ (qval q)) |]; rewrite hdist_sym, hdir_near by exact Pq; lra).
    destruct o as [p | p | | | |]; cbn [turn_step turn_map htrack turn_all] in *.
    - destruct Fo as [Fp [L1 L2]]. destruct (mul_step p q P Fp Fq) as (r & E & Nr & Dr); [split; nra | lra | lra |]. exists r. split; [exact E |]. split; [exact Nr |].
      eapply Rle_trans; [apply (hdist_triangle _ (hmul (hdir (qval p)) (hdir (qval q)))) |]. rewrite hdist_mul_l, hdir_len by lra. lra.
    - destruct Fo as [Fp [L1 L2]]. destruct (mul_step q p P Fq Fp) as (r & E & Nr & Dr); [split; nra | lra | lra |]. exists r. split; [exact E |]. split; [exact Nr |].
      eapply Rle_trans; [apply (hdist_triangle _ (hmul (hdir (qval q)) (hdir (qval p)))) |]. rewrite hdist_mul_r, hdir_len by lra. lra.
    - destruct (qconj_val prec emax lm q Fq) as [Fc Ec]. exists (quat_conjugate q). split; [reflexivity |]. split; [split; [exact Fc |]; rewrite Ec, hlen_conj; exact Lq |]. rewrite Ec, hdist_conj. lra.
    - destruct (qneg_val q Fq) as [Fc Ec]. exists (quat_negate q). split; [reflexivity |]. split; [split; [exact Fc |]; rewrite Ec, hlen_neg; exact Lq |]. rewrite Ec, hdist_neg. lra.
    - destruct (norm_step q P Fq ltac:(lra)) as (r & E & Fr & Dr & Lr). exists r. split; [exact E |]. split; [split; assumption |]. eapply Rle_trans; [apply (hdist_triangle _ (hdir (qval q))) |]. lra.
    - destruct (inv_step q P (conj Fq Lq)) as (r & E & Nr & Dr). exists r. split; [exact E |]. split; [exact Nr |]. eapply Rle_trans; [apply (hdist_triangle _ (hconj (hdir (qval q)))) |]. rewrite hdist_conj. lra.
  Qed.
  Theorem run_ok (l : list (turn (quat F))) (q : quat F) (U : H4) d : (9 < prec)%Z -> near q -> Forall (turn_all factor) l -> hdist (qval q) U <= d ->
    exists r, turn_run l q = Ok r /\ near r /\ hdist (qval r) (fold_left htrack (map (turn_map (fun p => qval p)) l) U) <= d + INR (length l) * (37 * u).
  Proof.
    intro P. revert q U d. induction l as [| o l IH]; intros q U d Nq Fl D.
    - exists q. cbn. split; [reflexivity |]. split; [exact Nq |]. lra.
    - inversion Fl as [| ? ? Fo Fl']; subst. destruct (step_ok q o U d P Nq Fo D) as (r & E & Nr & Dr). destruct (IH r _ _ Nr Fl' Dr) as (s & Es & Ns & Ds). exists s. cbn [turn_run]. rewrite E. cbn [bind]. split; [exact Es |]. split; [exact Ns |].
      cbn [map fold_left]. change (length (o :: l)) with (S (length l)). rewrite S_INR. lra.
  Qed.
  (** a vector turned by the outcome *)
  Theorem run_vector (l : list (turn (quat F))) (q : quat F) (v : mat3x1 F) : (9 < prec)%Z -> near q -> Forall (turn_all factor) l -> fin3 (v : mat3x1 bf) -> norm (v3 (v : mat3x1 bf)) <= bpow radix2 (emax - 8) ->
    exists r, turn_run l q = Ok r /\ dist (v3 (quat_rotate_vector r v : mat3x1 bf)) (hrot (fold_left htrack (map (turn_map (fun p => qval p)) l) (hdir (qval q))) (v3 (v : mat3x1 bf))) <= (76 * INR (length l) + 40) * u * norm (v3 (v : mat3x1 bf)) + 28 * et.
  Proof.
    intros P Nq Fl Fv Lv. pose proof (u_pos prec) as U0. pose proof (u_small prec P) as Us. set (n := norm (v3 (v : mat3x1 bf))) in *. assert (Pn : 0 <= n) by apply norm_pos.
    assert (D0 : hdist (qval q) (hdir (qval q)) <= 9 * u) by (destruct Nq as [_ L]; rewrite hdir_near by (apply Rabs_le_inv in L; lra); exact L).
    destruct (run_ok l q _ _ P Nq Fl D0) as (r & E & [Fr Lr] & Dr). exists r. split; [exact E |]. apply Rabs_le_inv in Lr. set (U := fold_left _ _ _) in *.
    assert (LU : hlen U = 1).
    { unfold U. assert (G : forall (ls : list (turn (quat F))) (Z : H4), Forall (turn_all factor) ls -> hlen Z = 1 -> hlen (fold_left htrack (map (turn_map (fun p => qval p)) ls) Z) = 1).
      { induction ls as [| o ls IH]; intros Z FZ LZ; [exact LZ |]. inversion FZ as [| ? ? Fo FZ']; subst. cbn [map fold_left]. apply IH; [exact FZ' |]. destruct o; cbn [turn_map htrack turn_all] in *; try exact LZ.
        - destruct Fo as [_ [A B]]. rewrite hlen_mul, hdir_len by lra. lra.
        - destruct Fo as [_ [A B]]. rewrite hlen_mul, hdir_len by lra. lra.
        - rewrite hlen_conj. exact LZ.
        - rewrite hlen_neg. exact LZ.
        - rewrite hlen_conj. exact LZ. }
      apply G; [exact Fl |]. apply hdir_len. destruct Nq as [_ L]. apply Rabs_le_inv in L. lra. }
    destruct (rotate_ieee prec emax lm r v P Fr Fv ltac:(lra) Lv) as [_ Dv]. fold n in Dv. rewrite <- hlen_sq in Dv. set (L := hlen (qval r)) in *.
    eapply Rle_trans; [apply (dist_tri3 _ (hrot (qval r) (v3 (v : mat3x1 bf)))) |].
    pose proof (hrot_near (qval r) U (v3 (v : mat3x1 bf))) as H. fold n L in H. rewrite LU in H. set (d := hdist (qval r) U) in *. assert (Pd : 0 <= d) by apply hlen_pos. set (k := INR (length l)) in *. assert (Pk : 0 <= k) by apply pos_INR.
    assert (A : (L + 1) * d * n <= (2 + 9 * u) * (9 * u + k * (37 * u)) * n).
    { apply Rmult_le_compat_r; [exact Pn |]. apply Rmult_le_compat; lra. }
    assert (B : 19 * u * (L * L * n) <= 19 * u * (102 / 100 * 102 / 100 * n)).
    { apply Rmult_le_compat_l; [lra |]. apply Rmult_le_compat_r; [exact Pn |]. assert (L <= 102 / 100) by lra. assert (0 <= L) by lra. nra. }
    assert (C : (2 + 9 * u) * (9 * u + k * (37 * u)) <= 202 / 100 * (9 * u + k * (37 * u))). { apply Rmult_le_compat_r; [|lra]. assert (0 <= k * (37 * u)) by (apply Rmult_le_pos; lra). lra. }
    assert (C' := Rmult_le_compat_r n _ _ Pn C). assert (un : 0 <= u * n) by (apply Rmult_le_pos; lra). assert (kun : 0 <= k * (u * n)) by (apply Rmult_le_pos; assumption).
    replace ((76 * k + 40) * u * n) with (76 * (k * (u * n)) + 40 * (u * n)) by ring. replace (202 / 100 * (9 * u + k * (37 * u)) * n) with (202 / 100 * 9 * (u * n) + 202 / 100 * 37 * (k * (u * n))) in C' by ring.
    replace (19 * u * (102 / 100 * 102 / 100 * n)) with (19 * (102 / 100 * 102 / 100) * (u * n)) in B by ring. lra.
  Qed.
  (** a vector turned again and again *)
  Theorem spin_length (l : list (quat F)) (v : mat3x1 F) M : (9 < prec)%Z -> Forall near l -> fin3 (v : mat3x1 bf) -> norm (v3 (v : mat3x1 bf)) <= M -> 0 <= M ->
    (M + 28 * INR (length l) * et) * (1 + 38 * u) ^ length l <= bpow radix2 (emax - 8) ->
    fin3 (spin l v : mat3x1 bf) /\ Rabs (norm (v3 (spin l v : mat3x1 bf)) - norm (v3 (v : mat3x1 bf))) <= (M + 28 * INR (length l) * et) * (1 + 38 * u) ^ length l - M.
  Proof.
    intro P. pose proof (u_pos prec) as U0. pose proof (et_pos prec emax) as T0. revert v M. induction l as [| q l IH]; intros v M Nl Fv Lv PM B.
    - cbn. split; [exact Fv |]. rewrite Rminus_diag_eq, Rabs_R0 by reflexivity. lra.
    - inversion Nl as [| ? ? [Fq Lq] Nl']; subst. cbn [spin]. change (length (q :: l)) with (S (length l)) in *. rewrite S_INR in *. set (k := INR (length l)) in *. set (W := 1 + 38 * u) in *. assert (W1 : 1 <= W) by (unfold W; lra). cbn [pow] in *.
      assert (Pk : 0 <= k) by apply pos_INR. set (X := W ^ length l) in *. assert (X1 : 1 <= X) by (apply pow_R1_Rle; exact W1).
      set (M' := M * W + 28 * et). assert (K0 : 0 <= k * et) by (apply Rmult_le_pos; lra).
      assert (Le : (M' + 28 * k * et) * X <= (M + 28 * (k + 1) * et) * (W * X)). { rewrite <- (Rmult_assoc _ W X). apply Rmult_le_compat_r; [lra |]. unfold M'. assert (28 * et + 28 * k * et <= (28 * (k + 1) * et) * W) by nra. lra. }
      assert (Mb : norm (v3 (v : mat3x1 bf)) <= bpow radix2 (emax - 8)). { eapply Rle_trans; [exact Lv |]. eapply Rle_trans; [| exact B]. assert (0 <= 28 * (k + 1) * et) by nra. assert (1 <= W * X) by nra. nra. }
      assert (Lq' := Lq). apply Rabs_le_inv in Lq'. pose proof (u_small prec P) as Us. destruct (rotate_ieee prec emax lm q v P Fq Fv ltac:(lra) Mb) as [Fr _]. pose proof (rotate_length prec emax lm q v P Fq Fv Lq Mb) as Dr.
      set (r := quat_rotate_vector q v) in *. set (n := norm (v3 (v : mat3x1 bf))) in *. assert (Pn : 0 <= n) by apply norm_pos.
      assert (Dm : 38 * u * n + 28 * et <= M' - M). { unfold M', W. assert (u * n <= u * M) by (apply Rmult_le_compat_l; lra). lra. }
      assert (Dr' := Dr). apply Rabs_le_inv in Dr'.
      destruct (IH r M' Nl' Fr ltac:(lra) ltac:(lra) ltac:(lra)) as [Fs Ds]. split; [exact Fs |]. replace (norm (v3 (spin l r : mat3x1 bf)) - n) with ((norm (v3 (spin l r : mat3x1 bf)) - norm (v3 (r : mat3x1 bf))) + (norm (v3 (r : mat3x1 bf)) - n)) by ring.
      eapply Rle_trans; [apply Rabs_triang |]. lra.
  Qed.
End Run.
