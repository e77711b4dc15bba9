(** PPow0.v — the square root of the square never falls below the number, so the scalar part divided by the length stays
    in [-1,1], and the angle of a quaternion is computed up to the smaller of 7 sqrt u and 28 u / sin. *)
From Coq Require Import Reals List ZArith NArith Bool Lra Lia Psatz.
From Flocq Require Import Core BinarySingleNaN.
Import ListNotations.
From Verif Require Import Shape Base Num Vec Mat Quat Float Exact FloatFacts FloatRound Order SpecMat SpecGeom SpecBound SpecQuat
  SpecRound SpecBuild SpecFq SpecTrig SpecPow ExactFacts PMat PShape PBuild PGeo1 PQuat PQuat2 PRound PRound2 PRound3 PIeee1 PIeee2 PIeee3 PIeee4 PIeee5 PIeee6 PIeee7 PPrismF PTrig PTrig2 PTrig3 PPow.
Local Open Scope R_scope.

(** the arc cosine moves by at most the root of six times the change of its argument *)
Lemma acos_holder a b : -1 <= a <= 1 -> -1 <= b <= 1 -> Rabs (acos a - acos b) <= sqrt (6 * Rabs (a - b)).
Proof.
  intros Ha Hb. set (x := acos a). set (y := acos b). pose proof (acos_bound a) as Bx. pose proof (acos_bound b) as By. fold x in Bx. fold y in By.
  assert (W : forall x y, 0 <= y <= x -> x <= PI -> (x - y) * (x - y) <= 6 * (cos y - cos x)).
  { clear. intros x y Hy Hx. rewrite (form2 y x). set (h := (x - y) / 2). replace ((y - x) / 2) with (- h) by (unfold h; lra). replace ((y + x) / 2) with (y + h) by (unfold h; lra). rewrite sin_neg.
    assert (H0 : 0 <= h <= PI / 2) by (unfold h; lra). assert (S0 : 0 <= sin h) by (apply sin_ge_0; lra).
    assert (M : sin h <= sin (y + h)). { destruct (Rle_dec (y + h) (PI / 2)) as [L | L]; [apply sin_incr_1; lra |]. rewrite <- (sin_PI_x (y + h)). apply sin_incr_1; unfold h in *; lra. }
    pose proof (jordan_abs h ltac:(rewrite Rabs_pos_eq; lra)) as J. rewrite !Rabs_pos_eq in J by lra.
    replace (x - y) with (2 * h) by (unfold h; lra). assert (h * h <= 17 / 10 * sin h * h) by (apply Rmult_le_compat_r; lra). assert (17 / 10 * sin h * h <= 17 / 10 * sin h * (17 / 10 * sin h)) by (apply Rmult_le_compat_l; lra).
    assert (sin h * sin h <= sin h * sin (y + h)) by (apply Rmult_le_compat_l; lra). assert (0 <= sin h * sin h) by (apply Rmult_le_pos; exact S0). lra. }
  assert (V : forall x y, 0 <= y <= x -> x <= PI -> Rabs (x - y) <= sqrt (6 * Rabs (cos x - cos y))).
  { intros p q Hq Hpq. pose proof (W p q Hq Hpq) as Z. rewrite (Rabs_pos_eq (p - q)) by lra. rewrite <- (sqrt_square (p - q)) by lra. apply sqrt_le_1_alt. eapply Rle_trans; [exact Z |]. apply Rmult_le_compat_l; [lra |]. rewrite Rabs_minus_sym. apply Rle_abs. }
  assert (Ea : a = cos x) by (symmetry; apply cos_acos; exact Ha). assert (Eb : b = cos y) by (symmetry; apply cos_acos; exact Hb). rewrite Ea at 1. rewrite Eb at 1. clearbody x y. destruct (Rle_dec y x) as [L | L]; [apply V; lra |].
  rewrite Rabs_minus_sym, (Rabs_minus_sym (cos x)). apply V; lra.
Qed.

Section Pow0.
  Context (prec emax : Z) {Hp : Prec_gt_0 prec} {Hm : Prec_lt_emax prec emax} (lm : libm (binary_float prec emax)).
  Notation bf := (binary_float prec emax).
  Notation F := (@Ieee prec emax Hp Hm lm).
  Notation u := (uro prec).
  Notation et := (eta prec emax).
  Notation val := (@B2R prec emax).
  Notation fin x := (@is_finite prec emax x = true).
  Notation fmt := (SpecFloat.fexp prec emax).
  Notation rnd := (round radix2 fmt ZnearestE).

  Lemma sqrt_square_ge (w : R) : generic_format radix2 fmt w -> 0 < w -> bpow radix2 (2 - emax) <= w * w -> (2 <= emax)%Z -> w <= rnd (sqrt (rnd (w * w))).
  Proof.
    intros G W0 Big E2. assert (U0 : 0 < u) by apply u_pos.
    set (e := mag radix2 w). assert (Hi : w < bpow radix2 e) by (pose proof (bpow_mag_gt radix2 w) as Z; rewrite Rabs_pos_eq in Z by lra; exact Z).
    assert (Lo : bpow radix2 (e - 1) <= w) by (pose proof (bpow_mag_le radix2 w ltac:(lra)) as Z; rewrite Rabs_pos_eq in Z by lra; exact Z).
    assert (Ee : (3 - emax <= e)%Z). { destruct (Z_le_gt_dec (3 - emax) e) as [L | L]; [exact L | exfalso]. assert (L2 : w < bpow radix2 (2 - emax)) by (eapply Rlt_le_trans; [exact Hi | apply bpow_le; lia]).
      assert (bpow radix2 (2 - emax) <= 1) by (apply (bpow_le radix2 (2 - emax) 0); lia). nra. }
    assert (Ul : ulp radix2 fmt w = 2 * u * bpow radix2 (e - 1)).
    { rewrite ulp_neq_0 by lra. unfold cexp. fold e. unfold SpecFloat.fexp, SpecFloat.emin. rewrite Z.max_l by lia. unfold uro. change 2 with (bpow radix2 1). rewrite <- !bpow_plus. f_equal. lia. }
    pose proof (id_p_ulp_le_bpow radix2 fmt w e W0 G Hi) as Tp. rewrite Ul in Tp. replace (bpow radix2 e) with (2 * bpow radix2 (e - 1)) in Tp by (change 2 with (bpow radix2 1); rewrite <- bpow_plus; f_equal; lia).
    set (B := bpow radix2 (e - 1)) in *. assert (B0 : 0 < B) by apply bpow_gt_0.
    destruct (Req_dec w B) as [E | E].
    - assert (S : rnd (w * w) = w * w). { apply round_generic; [apply valid_rnd_N |]. rewrite E. unfold B. rewrite <- bpow_plus. apply generic_format_bpow'; [apply fexp_correct; exact Hp |].
        unfold SpecFloat.fexp, SpecFloat.emin. apply Z.max_lub; [unfold Prec_gt_0 in Hp; lia |]. assert (2 - emax <= e - 1 + (e - 1))%Z; [| unfold Prec_gt_0 in Hp; lia]. apply (le_bpow radix2). rewrite bpow_plus. fold B. rewrite <- E. exact Big. }
      rewrite S, sqrt_square by lra. right. symmetry. apply round_generic; [apply valid_rnd_N | exact G].
    - apply round_N_ge_midp; [apply fexp_correct; exact Hp | exact G |]. rewrite pred_eq_pos by lra. unfold pred_pos. fold e. fold B. rewrite Req_bool_false by exact E. rewrite Ul.
      destruct (rnd_rel prec emax (w * w)) as (r & Hr & Er); [rewrite Rabs_pos_eq; [exact Big | apply Rmult_le_pos; lra] |]. rewrite Er. apply Rabs_le_inv in Hr.
      set (m := (w + (w - 2 * u * B)) / 2). assert (Em : m = w - u * B) by (unfold m; field). rewrite Em. clear m Em.
      assert (uB : 0 < u * B) by (apply Rmult_lt_0_compat; assumption).
      assert (u1 : u <= 1). { unfold uro. apply (bpow_le radix2 (- prec) 0). unfold Prec_gt_0 in Hp. lia. }
      assert (m0 : 0 <= w - u * B) by (assert (u * B <= 1 * B) by (apply Rmult_le_compat_r; lra); lra).
      rewrite <- (sqrt_square (w - u * B)) by exact m0. apply sqrt_lt_1; [apply Rmult_le_pos; exact m0 | apply Rmult_le_pos; [apply Rmult_le_pos |]; lra |].
      apply Rlt_le_trans with (w * w * (1 - u)); [| apply Rmult_le_compat_l; [apply Rmult_le_pos |]; lra].
      assert (K : B * (2 * u * B) <= w * (2 * B - w)) by (apply Rmult_le_compat; [lra | nra | lra | lra]).
      assert (K2 : u * (u * (B * B)) < u * (w * (2 * B - w))). { apply Rmult_lt_compat_l; [exact U0 |]. assert (0 < u * (B * B)) by (apply Rmult_lt_0_compat; [exact U0 | apply Rmult_lt_0_compat; exact B0]). lra. }
      replace ((w - u * B) * (w - u * B)) with (w * w - u * (w * (2 * B)) + u * (u * (B * B))) by ring. replace (w * w * (1 - u)) with (w * w - u * (w * w)) by ring. replace (w * (2 * B - w)) with (w * (2 * B) - w * w) in K2 by ring. lra.
  Qed.
  (** the length is at least each component's rounded square root of its rounded square *)
  Lemma qlen_ge (q : quat F) : (9 < prec)%Z -> qfin (q : quat bf) -> hlen (qval (q : quat bf)) <= 2 -> rnd (sqrt (rnd (val (qw q) * val (qw q)))) <= val (quat_length q).
  Proof.
    intros P Fq L. assert (HE : (10 < emax)%Z) by (unfold Prec_lt_emax in Hm; lia). destruct (comp_bnd prec emax lm 1 q Fq L) as (Bx & By & Bz & Bw).
    assert (M : forall x : bf, bnd prec emax 1 x -> bnd prec emax 2 (Bmult mode_NE x x) /\ 0 <= val (Bmult mode_NE x x) /\ val (Bmult mode_NE x x) = rnd (val x * val x)).
    { intros x B. destruct (mult_bnd prec emax 1 1 x x ltac:(lia) ltac:(lia) B B) as [[_ V] M]. split; [exact M |]. split; [| exact V]. rewrite V. apply (rnd_nonneg prec emax). pose proof (Rle_0_sqr (val x)) as Q. exact Q. }
    destruct (M _ Bx) as (Mx & Px & _), (M _ By) as (My & Py & _), (M _ Bz) as (Mz & Pz & _), (M _ Bw) as (Mw & Pw & Vw).
    destruct (plus_bnd prec emax 2 _ _ ltac:(lia) ltac:(lia) Mx My) as [[_ V1] M1]. destruct (plus_bnd prec emax 3 _ _ ltac:(lia) ltac:(lia) M1 (bnd_le prec emax 2 3 _ ltac:(lia) Mz)) as [[_ V2] M2].
    destruct (plus_bnd prec emax 4 _ _ ltac:(lia) ltac:(lia) M2 (bnd_le prec emax 2 4 _ ltac:(lia) Mw)) as [[F3 V3] M3].
    assert (P1 : 0 <= rnd (val (Bmult mode_NE (qx q : bf) (qx q)) + val (Bmult mode_NE (qy q : bf) (qy q)))) by (apply (rnd_nonneg prec emax); lra). rewrite <- V1 in P1.
    match type of V2 with _ = rnd ?e => assert (P2 : 0 <= rnd e) by (apply (rnd_nonneg prec emax); lra) end. rewrite <- V2 in P2.
    match type of V3 with _ = rnd (?a + ?b) => assert (P3 : b <= rnd (a + b)) by (rewrite <- (rnd_B2R prec emax _) at 1; apply (rnd_le prec emax); lra) end. rewrite <- V3 in P3.
    destruct (sqrt_ok prec emax _ F3 ltac:(lra)) as [_ Vs]. change (val (quat_length q)) with (val (Bsqrt mode_NE (Bplus mode_NE (Bplus mode_NE (Bplus mode_NE (Bmult mode_NE (qx q : bf) (qx q)) (Bmult mode_NE (qy q : bf) (qy q))) (Bmult mode_NE (qz q : bf) (qz q))) (Bmult mode_NE (qw q : bf) (qw q))))).
    rewrite Vs. apply (rnd_le prec emax). apply sqrt_le_1_alt. rewrite <- Vw. exact P3.
  Qed.
  (** the scalar part over the length: finite, in [-1,1], close to the exact quotient *)
  Lemma scalar_over (q : quat F) : (9 < prec)%Z -> qfin (q : quat bf) -> let Q := qval (q : quat bf) in / 2 <= hlen Q <= 2 -> let l := quat_length q in
    fin l /\ Rabs (val l - hlen Q) <= 604 / 100 * u * hlen Q /\ fin (ndiv F (qw q) l) /\ -1 <= val (ndiv F (qw q) l) <= 1 /\ Rabs (val (ndiv F (qw q) l) - hs Q / hlen Q) <= 81 / 10 * u.
  Proof.
    intros P Fq Q HL l. pose proof (u_small prec P) as U. pose proof (u_pos prec) as U0. pose proof (et_pos prec emax) as T0. pose proof (et_small prec emax P) as T.
    assert (Fl : fin l) by (apply qlen_fin; [exact P | exact Fq | fold Q; lra]). split; [exact Fl |].
    assert (HE : (prec < emax)%Z) by exact Hm. assert (EQ : hdot Q Q = val (qx q) * val (qx q) + val (qy q) * val (qy q) + val (qz q) * val (qz q) + val (qw q) * val (qw q)) by reflexivity.
    assert (SL : sqrt (val (qx q) * val (qx q) + val (qy q) * val (qy q) + val (qz q) * val (qz q) + val (qw q) * val (qw q)) = hlen Q) by reflexivity.
    assert (SM : bpow radix2 (6 - emax) <= val (qx q) * val (qx q) + val (qy q) * val (qy q) + val (qz q) * val (qz q) + val (qw q) * val (qw q)).
    { rewrite <- EQ, <- hlen_sq. apply Rle_trans with (bpow radix2 (-2)); [apply bpow_le; clear - P HE; lia | change (bpow radix2 (-2)) with (/ 4); clear - HL; nra]. }
    destruct (qnorm prec emax lm (qx q) (qy q) (qz q) (qw q) P) as [K (x & y & z & w & E & _ & _ & _ & [Fw Ew] & _)]; [destruct q; exact Fl | exact SM |].
    rewrite SL in K, Ew. assert (Eq' : Quat.Q (qx q) (qy q) (qz q) (qw q) = q) by (destruct q; reflexivity). rewrite Eq' in K, E.
    assert (El : Rabs (val l - hlen Q) <= 604 / 100 * u * hlen Q). { eapply Rle_trans; [exact K |]. apply Rmult_le_compat_r; [lra |]. pose proof (pow_small prec 4 P ltac:(lia)) as W. simpl INR in W. replace (4 + 2)%nat with 6%nat in W by reflexivity. lra. }
    split; [exact El |].
    assert (Ew2 : w = ndiv F (qw q) l). { unfold quat_normalize in E. fold l in E. destruct (ngt l n0 || nlt l n0)%bool; [injection E as _ _ _ <-; reflexivity | discriminate E]. }
    subst w. change (val (qw q)) with (hs Q) in Ew. split; [exact Fw |]. destruct (hlen_comp Q) as (_ & _ & _ & C4).
    assert (C1 : Rabs (hs Q / hlen Q) <= 1). { unfold Rdiv. rewrite Rabs_mult, (Rabs_pos_eq (/ hlen Q)) by (left; apply Rinv_0_lt_compat; lra). apply Rmult_le_reg_r with (hlen Q); [lra |]. rewrite Rmult_assoc, Rinv_l by lra. lra. }
    assert (Ew3 : Rabs (val (ndiv F (qw q) l) - hs Q / hlen Q) <= 81 / 10 * u). { eapply Rle_trans; [exact Ew |]. assert (8 * u * Rabs (hs Q / hlen Q) <= 8 * u * 1) by (apply Rmult_le_compat_l; lra). lra. }
    split; [| exact Ew3]. destruct (Rle_dec (Rabs (hs Q)) (/ 4)) as [Sm | Lg].
    - assert (Rabs (hs Q / hlen Q) <= / 2). { unfold Rdiv. rewrite Rabs_mult, (Rabs_pos_eq (/ hlen Q)) by (left; apply Rinv_0_lt_compat; lra). apply Rmult_le_reg_r with (hlen Q); [lra |]. rewrite Rmult_assoc, Rinv_l by lra. lra. }
      apply Rabs_le_inv in H, Ew3. lra.
    - assert (GE : Rabs (hs Q) <= val l).
      { eapply Rle_trans; [| apply (qlen_ge q P Fq); fold Q; lra]. change (val (qw q)) with (hs Q). replace (hs Q * hs Q) with (Rabs (hs Q) * Rabs (hs Q)) by (rewrite <- Rabs_mult; apply Rabs_pos_eq; pose proof (Rle_0_sqr (hs Q)) as Z; exact Z).
        apply sqrt_square_ge; [apply generic_format_abs; apply generic_format_B2R | lra | | clear - P HE; lia].
        apply Rle_trans with (bpow radix2 (-4)); [apply bpow_le; clear - P HE; lia | change (bpow radix2 (-4)) with (/ 16); clear - Lg; nra]. }
      assert (L0 : 0 < val l) by (pose proof (Rabs_pos (hs Q)); lra). destruct (div_round prec emax (qw q) l ltac:(apply Fq) ltac:(lra)) as [_ DV].
      assert (R1 : Rabs (val (qw q) / val l) <= bpow radix2 0). { change (bpow radix2 0) with 1. unfold Rdiv. rewrite Rabs_mult, (Rabs_pos_eq (/ val l)) by (left; apply Rinv_0_lt_compat; lra). apply Rmult_le_reg_r with (val l); [lra |]. rewrite Rmult_assoc, Rinv_l by lra. change (Rabs (val (qw q)) * 1 <= 1 * val l). change (val (qw q)) with (hs Q). lra. }
      pose proof (rnd_bpow prec emax 0 _ ltac:(clear - P HE; lia) R1) as R2. change (bpow radix2 0) with 1 in R2.
      destruct (div_round prec emax (qw q) l ltac:(apply Fq) ltac:(lra)) as [DV1 _]. destruct DV1 as [_ Vd]; [eapply Rle_lt_trans; [exact R2 | change 1 with (bpow radix2 0); apply bpow_lt; clear - P HE; lia] |].
      change (ndiv F (qw q) l) with (Bdiv mode_NE (qw q : bf) l). rewrite Vd. apply Rabs_le_inv in R2. lra.
  Qed.
  (** the angle *)
  Lemma pow_angle (q : quat F) (d : R) : (9 < prec)%Z -> qfin (q : quat bf) -> let Q := qval (q : quat bf) in let N := norm (hv Q) / hlen Q in
    / 2 <= hlen Q <= 2 -> acos_acc lm d -> let a := nacos F (ndiv F (qw q) (quat_length q)) in
    fin a /\ Rabs (val a - acos (hs Q / hlen Q)) <= d + 7 * sqrt u /\ (0 < N -> Rabs (val a - acos (hs Q / hlen Q)) <= d + 28 * (u / N)).
  Proof.
    intros P Fq Q N HL A. destruct (scalar_over q P Fq HL) as (_ & _ & Fw & I1 & Ew). fold Q in Ew. pose proof (u_pos prec) as U0. pose proof (hlen_split Q) as HS.
    assert (N0 : 0 <= N) by (unfold N; apply Rmult_le_pos; [apply norm_pos | left; apply Rinv_0_lt_compat; lra]).
    assert (NN : N * N + hs Q / hlen Q * (hs Q / hlen Q) = 1).
    { unfold N. replace (norm (hv Q) / hlen Q * (norm (hv Q) / hlen Q) + hs Q / hlen Q * (hs Q / hlen Q)) with ((norm (hv Q) * norm (hv Q) + hs Q * hs Q) / (hlen Q * hlen Q)) by (field; lra). rewrite <- HS. field. lra. }
    set (c := hs Q / hlen Q) in *. set (x := ndiv F (qw q) (quat_length q)) in *. cbv zeta. destruct (A _ Fw I1) as [Fa Ea]. split; [exact Fa |]. change (nacos F x) with (lm_acos lm x).
    assert (C1 : -1 <= c <= 1) by (clear - NN; split; nra).
    assert (X : forall D, Rabs (acos (val x) - acos c) <= D -> Rabs (val (lm_acos lm x) - acos c) <= d + D).
    { intros D HD. replace (val (lm_acos lm x) - acos c) with ((val (lm_acos lm x) - acos (val x)) + (acos (val x) - acos c)) by ring. eapply Rle_trans; [apply Rabs_triang |]. apply Rplus_le_compat; assumption. }
    split.
    - apply X. eapply Rle_trans; [apply acos_holder; [exact I1 | exact C1] |]. apply Rle_trans with (sqrt (7 * 7 * u)); [apply sqrt_le_1_alt; lra |]. rewrite sqrt_mult by lra. rewrite sqrt_square by lra. lra.
    - intro Np. apply X. pose proof (acos_near c (val x) C1 I1) as AN.
      assert (SN : sin (acos c) = N). { rewrite sin_acos by lra. replace (1 - c²) with (N * N) by (unfold Rsqr; lra). apply sqrt_square. exact N0. } rewrite SN in AN.
      rewrite Rabs_minus_sym. apply Rmult_le_reg_r with N; [lra |]. replace (28 * (u / N) * N) with (28 * u) by (field; lra). eapply Rle_trans; [exact AN |]. rewrite Rabs_minus_sym. lra.
  Qed.
End Pow0.
